(** Proofs for C182. *)
From Coq Require Import QArith ZArith.
From Verif.Base Require Import Py PyLemmas Fn.
From Verif.Model Require Import Runner.
From Verif.Spec Require Import Runner TileLocal.
From Verif.Proofs Require Import Runner.
From Coq Require Import Lia List. Import ListNotations.
Local Open Scope nat_scope.

Lemma number_S sel k : number sel (S k) = number sel k + if sel k then 1 else 0.
Proof. unfold number. rewrite seq_S, filter_app, app_length. cbn [plus filter]. destruct (sel k); reflexivity. Qed.
Lemma number_le sel a b : a <= b -> number sel a <= number sel b.
Proof. induction 1 as [|b H IH]; [lia|]. rewrite number_S. lia. Qed.
Lemma firstn_snoc {A} (l : list A) : forall k x, nth_error l k = Some x -> firstn (S k) l = firstn k l ++ [x].
Proof. induction l as [|y l IH]; intros [|k] x H; try discriminate H; cbn in *; [injection H as ->; reflexivity|]. rewrite (IH k x H). reflexivity. Qed.
Lemma before_S f proc cs k c : nth_error cs k = Some c -> before f proc cs (S k) = run_step f proc (before f proc cs k) c.
Proof. intros H. unfold before. rewrite (firstn_snoc _ _ _ H). apply run_loop_snoc. Qed.

(** claims on galaxies that are numbered otherwise *)
Lemma add_claims_ren (D : nat -> Prop) r (pg pg' : nat -> Q) l os :
  (forall g, D g -> pg g = pg' (r g)) -> (forall g, In g l -> forall h, D h -> r g = r h -> g = h) -> (forall g, In g l -> pg g = pg' (r g)) ->
  forall g, D g -> add_claims pg (combine l os) g = add_claims pg' (combine (map r l) os) (r g).
Proof.
  intros HD HI HL. unfold add_claims.
  assert (G : forall m m' acc acc', (forall g, D g -> acc g = acc' (r g)) -> Forall2 (fun e e' => fst e' = r (fst e) /\ snd e' = snd e /\ In (fst e) l) m m' ->
    forall g, D g -> fold_left (fun acc e => if no_mask (snd e) && Qlt_bool 0 (no_p (snd e)) then upd acc (fst e) (pg (fst e) + no_p (snd e))%Q else acc) m acc g =
                     fold_left (fun acc e => if no_mask (snd e) && Qlt_bool 0 (no_p (snd e)) then upd acc (fst e) (pg' (fst e) + no_p (snd e))%Q else acc) m' acc' (r g)).
  { induction m as [|[a o] m IH]; intros m' acc acc' HA HF; inversion HF as [|? [b o'] ? m2 (E1 & E2 & E3) HF']; subst; [exact HA|].
    cbn [fst snd] in E1, E2, E3. subst b o'. cbn [fold_left fst snd]. apply IH; [|exact HF']. intros g Hg. destruct (no_mask o && Qlt_bool 0 (no_p o)); [|apply HA, Hg].
    destruct (Nat.eq_dec g a) as [->|N]; [rewrite !upd_same, (HL a E3); reflexivity|]. rewrite !upd_other; [apply HA, Hg| |exact N]. intros E. apply N. symmetry. apply (HI a E3 g Hg). congruence. }
  apply G; [exact HD|]. clear. assert (X : forall l0, incl l0 l -> forall os, Forall2 (fun e e' : nat * nbr_out => fst e' = r (fst e) /\ snd e' = snd e /\ In (fst e) l) (combine l0 os) (combine (map r l0) os)).
  { induction l0 as [|a l0 IH]; intros Hi os0; [constructor|]. destruct os0 as [|o os0]; [constructor|]. cbn [combine map]. constructor; [cbn; split; [reflexivity|]; split; [reflexivity|apply Hi; left; reflexivity]|].
    apply IH. intros x Hx. apply Hi. right; exact Hx. }
  apply X. intros x Hx; exact Hx.
Qed.

(** what the rows of a cluster are in the part *)
Definition rename (r : nat -> nat) (i : Z) (m : mrec) : mrec := mkMR i (r (mr_gal m)) (mr_p m) (mr_pfree m).
Lemma mem_of_ren f r i i' l pf os : mem_of f i' (combine (combine (map r l) pf) os) = map (rename r i') (mem_of f i (combine (combine l pf) os)).
Proof.
  revert pf os. induction l as [|a l IH]; intros pf os; [reflexivity|]. destruct pf as [|x pf]; [reflexivity|]. destruct os as [|o os]; [reflexivity|].
  cbn [map combine mem_of flat_map]. rewrite map_app. f_equal; [|apply IH]. destruct (_ || _); reflexivity.
Qed.
Lemma step_ren f proc proc' r pg pg' c c' : same_cluster r proc proc' c c' -> (forall g, In g (cl_nb c) -> pg g = pg' (r g)) ->
  cr_lambda (fst (fst (step f proc' pg' c'))) = cr_lambda (fst (fst (step f proc pg c))) /\
  snd (step f proc' pg' c') = option_map (map (rename r (cl_id c'))) (snd (step f proc pg c)) /\
  forall D : nat -> Prop, (forall g, D g -> pg g = pg' (r g)) -> (forall g, In g (cl_nb c) -> forall h, D h -> r g = r h -> g = h) ->
    forall g, D g -> snd (fst (step f proc pg c)) g = snd (fst (step f proc' pg' c')) (r g).
Proof.
  intros [N P] HL. assert (HH : handed f pg' c' = handed f pg c).
  { unfold handed. rewrite N, map_map. apply map_ext_in. intros g Hg. destruct (fl_perc f); [rewrite (HL g Hg)|]; reflexivity. }
  unfold step. rewrite HH, P, N. destruct (cl_nb c) as [|n nb] eqn:E; cbn [map].
  - cbn [fst snd cr_lambda option_map]. split; [reflexivity|]. split; [reflexivity|]. intros D HD _ g Hg. apply HD, Hg.
  - destruct (oc_bad _); cbn [fst snd cr_lambda option_map]; [split; [reflexivity|]; split; [reflexivity|]; intros D HD _ g Hg; apply HD, Hg|].
    split; [reflexivity|]. split.
    + destruct (fl_record f); [|reflexivity]. cbn [option_map]. f_equal. apply (mem_of_ren f r (cl_id c) (cl_id c') (n :: nb)).
    + intros D HD HI g Hg. destruct (fl_perc f); [|apply HD, Hg]. apply (add_claims_ren D r pg pg' (n :: nb)); assumption.
Qed.
Lemma step_other f proc pg c g : ~ In g (cl_nb c) -> snd (fst (step f proc pg c)) g = pg g.
Proof.
  intros H. unfold step. destruct (cl_nb c) as [|n nb] eqn:E; [reflexivity|]. destruct (oc_bad _); [reflexivity|]. cbn [fst snd]. destruct (fl_perc f); [|reflexivity].
  apply astep_notin. intros X. apply H. apply in_map_iff in X as ([a o] & <- & X). apply in_combine_l in X. exact X.
Qed.
Lemma run_step_pgal f proc s c : rs_pgal (run_step f proc s c) = snd (fst (step f proc (rs_pgal s) c)).
Proof. unfold run_step. destruct (step f proc (rs_pgal s) c) as [[a b] m]. reflexivity. Qed.

Lemma part_inv f proc proc' r sel cs cs' : part_of r proc proc' sel cs cs' -> closed sel cs -> numbered r sel cs ->
  forall k, k <= List.length cs -> forall g, (exists k' c', k <= k' /\ sel k' = true /\ nth_error cs k' = Some c' /\ In g (cl_nb c')) ->
  rs_pgal (before f proc cs k) g = rs_pgal (before f proc' cs' (number sel k)) (r g).
Proof.
  intros [_ HP] HC HN. induction k as [|k IH]; intros Hk g Hg; [reflexivity|].
  destruct (nth_error cs k) as [c|] eqn:Ec; [|apply nth_error_None in Ec; lia]. specialize (IH ltac:(lia)).
  rewrite (before_S _ _ _ _ _ Ec), run_step_pgal, number_S. destruct (sel k) eqn:Es.
  - destruct (HP k c Ec Es) as (c' & Ec' & SC). replace (number sel k + 1) with (S (number sel k)) by lia. rewrite (before_S _ _ _ _ _ Ec'), run_step_pgal.
    destruct (step_ren f proc proc' r (rs_pgal (before f proc cs k)) (rs_pgal (before f proc' cs' (number sel k))) c c' SC) as (_ & _ & ST).
    { intros h Hh. apply IH. exists k, c. auto. }
    apply (ST (fun h => exists k' c0, S k <= k' /\ sel k' = true /\ nth_error cs k' = Some c0 /\ In h (cl_nb c0))); [| |exact Hg].
    + intros h (k' & c0 & A & B). apply IH. exists k', c0. split; [lia|exact B].
    + intros h Hh h' (k' & c0 & A & B & C & D) E. apply (HN k k' c c0 h h' Ec C Es B Hh D E).
  - rewrite Nat.add_0_r, step_other; [apply IH; destruct Hg as (k' & c0 & A & B); exists k', c0; split; [lia|exact B]|].
    intros X. destruct Hg as (k' & c0 & A & B & C & D). exact (HC k k' c c0 g ltac:(lia) Ec C Es B X D).
Qed.
Lemma part_same f proc proc' r sel cs cs' k c : part_of r proc proc' sel cs cs' -> closed sel cs -> numbered r sel cs ->
  nth_error cs k = Some c -> sel k = true ->
  exists c', nth_error cs' (number sel k) = Some c' /\ cr_lambda (row f proc' cs' (number sel k) c') = cr_lambda (row f proc cs k c) /\
    saved f proc' cs' (number sel k) c' = map (rename r (cl_id c')) (saved f proc cs k c).
Proof.
  intros HP HC HN Ec Es. destruct (proj2 HP k c Ec Es) as (c' & Ec' & SC). exists c'. split; [exact Ec'|].
  destruct (step_ren f proc proc' r (rs_pgal (before f proc cs k)) (rs_pgal (before f proc' cs' (number sel k))) c c' SC) as (A & B & _).
  { intros h Hh. apply (part_inv f proc proc' r sel cs cs' HP HC HN k); [assert (k < List.length cs) by (apply nth_error_Some; congruence); lia|]. exists k, c. auto. }
  split; [exact A|]. unfold saved. rewrite B. destruct (snd (step f proc (rs_pgal (before f proc cs k)) c)); reflexivity.
Qed.

(** ** chains *)
Lemma link_step pg i b : (pg i == (if b : bool then 0 else 1))%Q -> (pg (S i) == 0)%Q ->
  cr_lambda (fst (fst (step (mkFL true true false) greedy pg (link i)))) = (if b then 20 else 0)%Q /\
  (snd (fst (step (mkFL true true false) greedy pg (link i))) (S i) == if b then 1 else 0)%Q /\
  forall g, S i < g -> snd (fst (step (mkFL true true false) greedy pg (link i))) g = pg g.
Proof.
  intros H1 H2. assert (Q : Qeq_bool (1 - pg i) 1 = b).
  { destruct b; [apply Qeq_bool_iff; rewrite H1; reflexivity|]. destruct (Qeq_bool (1 - pg i) 1) eqn:E; [|reflexivity]. apply Qeq_bool_iff in E. rewrite H1 in E. discriminate E. }
  split; [|split].
  - unfold step, link, handed, greedy. cbn [cl_nb fl_perc map oc_bad fst snd cr_lambda oc_lambda]. rewrite Q. reflexivity.
  - unfold step, link, handed, greedy. cbn [cl_nb fl_perc map oc_bad fst snd oc_nbrs combine]. rewrite Q. unfold add_claims. cbn [fold_left fst snd no_mask no_p andb].
    destruct b; [change (Qlt_bool 0 1) with true|change (Qlt_bool 0 0) with false]; cbv iota; [|exact H2]. rewrite upd_same, H2. reflexivity.
  - intros g Hg. apply step_other. cbn. intros [X|[X|[]]]; lia.
Qed.
Lemma chain_pgal s n : (rs_pgal (run_loop (mkFL true true false) greedy (map link (seq s n))) (s + n) == if Nat.even n then 0 else 1)%Q /\
  forall g, s + n < g -> (rs_pgal (run_loop (mkFL true true false) greedy (map link (seq s n))) g == 0)%Q.
Proof.
  induction n as [|n [A B]]; [split; [reflexivity|intros; reflexivity]|]. rewrite seq_S, map_app. cbn [map]. rewrite run_loop_snoc, run_step_pgal.
  set (pg := rs_pgal (run_loop (mkFL true true false) greedy (map link (seq s n)))) in *.
  destruct (link_step pg (s + n) (Nat.even n) A (B (S (s + n)) ltac:(lia))) as (_ & C & D). replace (s + S n) with (S (s + n)) by lia.
  rewrite Nat.even_succ, <- Nat.negb_even. split; [rewrite C; destruct (Nat.even n); reflexivity|]. intros g Hg. rewrite (D g Hg). apply B. lia.
Qed.
Lemma chain_row s n m : n < m -> cr_lambda (row (mkFL true true false) greedy (map link (seq s m)) n (link (s + n))) = (if Nat.even n then 20 else 0)%Q.
Proof.
  intros H. unfold row, before. rewrite firstn_map. replace m with (n + (m - n)) by lia. rewrite seq_app, firstn_app, seq_length, Nat.sub_diag, firstn_O, app_nil_r.
  rewrite firstn_all2 by (rewrite seq_length; lia). destruct (chain_pgal s n) as [A B]. apply (link_step _ (s + n) (Nat.even n) A). apply B. lia.
Qed.
