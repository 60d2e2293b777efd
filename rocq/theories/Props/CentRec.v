(** Property C166 (run_percolation.py, run_zscan.py: the recorded candidates for the centre). *)
From Coq Require Import QArith.
From Verif.Base Require Import Py PyLemmas.
From Verif.Model Require Import Galfile Richness CentRec.
From Verif.Model Require Runner.
From Verif.Spec Require Import CentRec.
From Verif.Proofs Require Import Ingest Richness Consolidate CentRec.
From Coq Require Import Lia List. Import ListNotations.

(** C166.  Every candidate is recorded in its slot with its own id, position and probability; the first one gives the position and the
    magnitudes of the cluster. *)
Theorem C166_own : forall zscan slots gals use ps old, use <> [] -> (List.length use <= slots)%nat -> List.length ps = List.length use ->
  (forall i, In i use -> (i < List.length gals)%nat) -> fresh slots gals old ->
  exists c r, wcen_cent slots gals use ps = Ok c /\ record_centres zscan slots gals c old = Ok r /\ r_n r = List.length use /\
    (forall k i g p, nth_error use k = Some i -> nth_error gals i = Some g -> nth_error ps k = Some p -> slot_holds r k g p) /\
    (forall i g, nth_error use 0 = Some i -> nth_error gals i = Some g -> r_pos r = g_pos g /\ r_mag r = g_mag g).
Proof.
  intros zscan slots gals use ps old Hn Hs Hp Hi F.
  destruct (exists_last (l := gals)) as (gals' & x & ->). { intros ->. destruct use as [|i use]; [congruence|]. specialize (Hi i (or_introl eq_refl)). cbn in Hi. lia. }
  assert (T : exists gs, np_take (gals' ++ [x]) use = Ok gs).
  { clear -Hi. induction use as [|i use IH]; [eexists; reflexivity|]. destruct IH as (gs & E); [intros; apply Hi; right; assumption|]. destruct (nth_error (gals' ++ [x]) i) as [g|] eqn:Eg; [|apply nth_error_None in Eg; specialize (Hi i (or_introl eq_refl)); lia].
    exists (g :: gs). cbn. rewrite Eg. cbn. rewrite E. reflexivity. }
  destruct T as (gs & T). assert (W : exists c, wcen_cent slots (gals' ++ [x]) use ps = Ok c) by (unfold wcen_cent; rewrite T; eexists; reflexivity). destruct W as (c & W).
  destruct (recorded zscan slots gals' x use ps old c) as (g0 & gs' & T' & R); auto; [congruence|].
  eexists c, _. split; [exact W|]. split; [exact R|]. cbn [r_n r_pos r_mag]. split; [reflexivity|]. rewrite T in T'. injection T' as ->. split.
  - intros k i g p Hk Hg Hpk. pose proof (take_nth _ _ _ k i T Hk) as G. rewrite Hg in G. pose proof (take_len _ _ _ T) as L. assert (Hk' : (k < List.length use)%nat) by (apply nth_error_Some; congruence).
    unfold slot_holds. cbn [r_ids r_cpos r_p]. rewrite !filled_in by (rewrite ?map_length; lia). rewrite !nth_error_map, G. auto.
  - intros i g Hk Hg. pose proof (take_nth _ _ _ 0 i T Hk) as G. rewrite Hg in G. cbn in G. injection G as ->. auto.
Qed.
Print Assumptions C166_own.

(** C166.  With as many candidates as there are slots, exactly the candidates are marked (percolation), or no galaxy is (zscan). *)
Theorem C166_marked_partial : forall zscan slots gals use ps old c r, use <> [] -> List.length use = slots -> List.length ps = List.length use ->
  fresh slots gals old -> wcen_cent slots gals use ps = Ok c -> record_centres zscan slots gals c old = Ok r ->
  List.length (r_cand r) = List.length gals /\ forall j b, nth_error (r_cand r) j = Some b -> (b = true <-> zscan = false /\ In j use).
Proof.
  intros zscan slots gals use ps old c r Hn Hs Hp F W R.
  destruct (exists_last (l := gals)) as (gals' & x & ->). { intros ->. destruct use as [|i use]; [congruence|]. unfold wcen_cent in W. cbn in W. destruct i; discriminate. }
  destruct (recorded zscan slots gals' x use ps old c) as (g0 & gs' & T & R'); auto; [unfold wcen_cent in W; destruct (np_take _ use); [discriminate|discriminate]|lia|].
  rewrite R' in R. injection R as <-. destruct F as (_ & F2). cbn [r_cand]. destruct zscan.
  - rewrite F2. split; [apply repeat_length|]. intros j b Hb. apply nth_error_In, repeat_spec in Hb. subst b. split; [discriminate|intros [E _]; discriminate].
  - split; [rewrite marks_len, F2; apply repeat_length|]. intros j b Hb. assert (Hj : (j < List.length (r_cand old))%nat) by (rewrite <- (marks_len (r_cand old) (filled slots (-1)%Z (map Z.of_nat use)) (List.length (gals' ++ [x]))); apply nth_error_Some; congruence).
    rewrite marks in Hb by exact Hj. injection Hb as <-. rewrite F2, nth_repeat. cbn [orb]. unfold filled. rewrite map_length, Hs, Nat.sub_diag. cbn [repeat]. rewrite app_nil_r. rewrite existsb_exists. split.
    + intros (i & Hi & E). apply in_map_iff in Hi. destruct Hi as (k & <- & Hk). unfold wrap in E. destruct (Z.ltb_spec (Z.of_nat k) 0); [lia|]. rewrite Nat2Z.id in E. apply Nat.eqb_eq in E. subst. auto.
    + intros (_ & Hj'). exists (Z.of_nat j). split; [apply in_map, Hj'|]. unfold wrap. destruct (Z.ltb_spec (Z.of_nat j) 0); [lia|]. rewrite Nat2Z.id. apply Nat.eqb_refl.
Qed.
Print Assumptions C166_marked_partial.

(** Finding: with fewer candidates than slots, every empty slot carries the id of the last neighbour (at position -400, -400 and with
    probability 0), and in percolation that neighbour is marked as a candidate for the centre. *)
Theorem C166_empty_refuted : forall zscan slots gals x use ps old c r, use <> [] -> (List.length use < slots)%nat -> List.length ps = List.length use ->
  fresh slots (gals ++ [x]) old -> wcen_cent slots (gals ++ [x]) use ps = Ok c -> record_centres zscan slots (gals ++ [x]) c old = Ok r ->
  (forall k, (List.length use <= k < slots)%nat -> nth_error (r_ids r) k = Some (g_id x) /\ nth_error (r_cpos r) k = Some (- (400 # 1), - (400 # 1))%Q /\ nth_error (r_p r) k = Some 0%Q) /\
  (zscan = false -> nth_error (r_cand r) (List.length gals) = Some true).
Proof.
  intros zscan slots gals x use ps old c r Hn Hs Hp F W R.
  destruct (recorded zscan slots gals x use ps old c) as (g0 & gs' & T & R'); auto; [unfold wcen_cent in W; destruct (np_take _ use); [discriminate|discriminate]|lia|].
  rewrite R' in R. injection R as <-. pose proof (take_len _ _ _ T) as L. split.
  - intros k Hk. cbn [r_ids r_cpos r_p]. rewrite !filled_out by (cbn [List.length] in *; rewrite ?map_length; lia). auto.
  - intros ->. destruct F as (_ & F2). cbn [r_cand]. rewrite marks by (rewrite F2, repeat_length, app_length; cbn; lia). f_equal. apply Bool.orb_true_intro. right. apply existsb_exists. exists (-1)%Z. split.
    + unfold filled. apply in_or_app. right. rewrite map_length. destruct (slots - List.length use) as [|n] eqn:E; [lia|]. left. reflexivity.
    + unfold wrap. cbn [Z.ltb Z.compare]. rewrite app_length. cbn [List.length]. replace (-1 + Z.of_nat (List.length gals + 1))%Z with (Z.of_nat (List.length gals)) by lia. rewrite Nat2Z.id. apply Nat.eqb_refl.
Qed.
Print Assumptions C166_empty_refuted.

(** Finding: a galaxy marked like that is written to the members of the cluster whatever its membership, with no free probability. *)
Theorem C166_member_refuted : forall f id g pf p mask cut before after, (p <= 1 # 100)%Q ->
  In (Runner.mkMR id g p 0) (Runner.mem_of f id (before ++ ((g, pf), Runner.mkNO p p mask cut true) :: after)).
Proof.
  intros f id g pf p mask cut before after Hp. unfold Runner.mem_of. rewrite flat_map_app. apply in_or_app. right. cbn [flat_map]. apply in_or_app. left.
  assert (E : Runner.mem_ok f (Runner.mkNO p p mask cut true) = false) by (unfold Runner.mem_ok; cbn; assert (X : Qlt_bool (1 # 100) p = false) by (apply Qlt_bool_false; exact Hp); rewrite X; destruct (Runner.fl_memcuts f); reflexivity).
  rewrite E. cbn [Runner.no_cand Runner.no_p]. rewrite Bool.orb_true_r. left. reflexivity.
Qed.
Print Assumptions C166_member_refuted.

(** Finding: after CenteringBCG all slots have the position of the one centre, also those without a candidate. *)
Theorem C166_bcg_refuted : forall zscan slots gals i g old c r, (1 < slots)%nat -> nth_error gals i = Some g -> fresh slots gals old ->
  bcg_cent slots gals i = Ok c -> record_centres zscan slots gals c old = Ok r ->
  r_n r = 1%nat /\ r_cpos r = repeat (g_pos g) slots /\ nth_error (r_ids r) 0 = Some (g_id g) /\ nth_error (r_p r) 0 = Some 1%Q /\ nth_error (r_p r) 1 = Some 0%Q.
Proof.
  intros zscan slots gals i g old c r Hs Hg (F1 & F2) B R. unfold bcg_cent in B. cbn [np_take] in B. rewrite Hg in B. cbn [bind] in B. injection B as <-.
  destruct slots as [|[|n]]; [lia|lia|]. unfold record_centres in R. cbn [ce_pos ce_index ce_p ce_ngood map filled List.length app Nat.sub] in R.
  assert (Z0 : forall A (a : A) l, py_index (a :: l) 0 = Ok a) by (intros A a l; exact (py_index_pos (a :: l) 0)).
  rewrite !Z0 in R. cbn [bind] in R. destruct (Z.leb_spec 0 (Z.of_nat i)); [|lia]. rewrite py_index_pos, Hg in R. cbn [bind] in R. cbn [mapM] in R. rewrite py_index_pos, Hg in R. cbn [bind] in R.
  destruct (mapM _ (repeat (-1)%Z (S n))) as [ids|] eqn:EI; [|discriminate]. cbn [bind] in R.
  destruct (assign (S (S n)) (g_id g :: ids)) as [ids'|] eqn:EA; [|discriminate]. cbn [bind] in R.
  assert (A1 : assign (S (S n)) [g_pos g] = Ok (repeat (g_pos g) (S (S n)))) by reflexivity. rewrite A1 in R. cbn [bind] in R.
  assert (A2 : assign (S (S n)) (1%Q :: repeat 0%Q (S n)) = Ok (1%Q :: repeat 0%Q (S n))) by (apply assign_ok; cbn; rewrite repeat_length; reflexivity). rewrite A2 in R. cbn [bind] in R. injection R as <-. cbn.
  repeat split. unfold assign in EA. destruct (Nat.eqb _ _); [injection EA as <-; reflexivity|]. destruct ids; [injection EA as <-; reflexivity|discriminate].
Qed.
Print Assumptions C166_bcg_refuted.

(** C166.  A centre that is no galaxy (CenteringRandom) leaves ids, magnitudes and marks as they were. *)
Theorem C166_no_galaxy : forall zscan slots gals pos p old r, fresh slots gals old ->
  record_centres zscan slots gals (mkCent (filled slots nowhere [pos]) (filled slots (-1)%Z []) (filled slots 0%Q [p]) 1) old = Ok r ->
  r_ids r = r_ids old /\ r_mag r = r_mag old /\ r_cand r = r_cand old /\ r_pos r = pos.
Proof.
  intros zscan slots gals pos p old r F R. unfold record_centres in R. cbn [ce_pos ce_index ce_p ce_ngood] in R.
  assert (P0 : py_index (filled slots nowhere [pos]) 0 = Ok pos) by (rewrite (py_index_pos _ 0); reflexivity). rewrite P0 in R. cbn [bind] in R.
  destruct slots as [|n]; [discriminate|]. assert (I0 : py_index (filled (S n) (-1)%Z []) 0 = Ok (-1)%Z) by (rewrite (py_index_pos _ 0); reflexivity). rewrite I0 in R. cbn [bind Z.leb Z.compare] in R.
  destruct (assign (S n) (filled (S n) nowhere [pos])); [|discriminate]. cbn [bind] in R. destruct (assign (S n) (filled (S n) 0%Q [p])); [|discriminate]. injection R as <-. auto.
Qed.
Print Assumptions C166_no_galaxy.

Definition ex_gals := [mkGal 10 (1, 1) 20; mkGal 11 (2, 2) 19; mkGal 12 (3, 3) 18]%Q%Z.
Definition ex_old := mkCrow (0, 0)%Q 0%Q [0; 0]%Z [] [] 0 [false; false; false].
Example C166_ex : fresh 2 ex_gals ex_old /\ exists c r, wcen_cent 2 ex_gals [1]%nat [1%Q] = Ok c /\ record_centres false 2 ex_gals c ex_old = Ok r /\ r_ids r = [11; 12]%Z /\ r_cand r = [false; true; true] /\ r_n r = 1%nat.
Proof. split; [split; reflexivity|]. eexists _, _. split; [reflexivity|]. split; [vm_compute; reflexivity|]. repeat split. Qed.
(** Values go into a column if there is one for every row, or just one; otherwise it is a ValueError. *)
Theorem C166_column {A} n (vals : list A) : (forall out, assign n vals = Ok out <-> (List.length vals = n /\ out = vals) \/ (List.length vals <> n /\ exists x, vals = [x] /\ out = repeat x n)) /\
  ((forall out, assign n vals <> Ok out) -> assign n vals = Err ValueError).
Proof.
  unfold assign. destruct (Nat.eqb_spec (List.length vals) n) as [E|N].
  - split; [|intros H; exfalso; exact (H _ eq_refl)]. intros out. split; [intros H; injection H as <-; auto|]. intros [[_ ->]|[N _]]; [reflexivity|contradiction].
  - destruct vals as [|x [|y t]].
    + split; [|reflexivity]. intros out. split; [discriminate|]. intros [[E _]|(_ & x & E & _)]; [contradiction|discriminate].
    + split; [|intros H; exfalso; exact (H _ eq_refl)]. intros out. split; [intros H; injection H as <-; right; eauto|]. intros [[E _]|(_ & z & E & ->)]; [contradiction|congruence].
    + split; [|reflexivity]. intros out. split; [discriminate|]. intros [[E _]|(_ & z & E & _)]; [contradiction|discriminate].
Qed.
Print Assumptions C166_column.
