(** Lemmas about a run in jobs. *)
From Coq Require Import Ascii String QArith Permutation Sorting.Sorted.
From Verif.Base Require Import Py PyLemmas Sort.
From Verif.Model Require Import Names Galfile Consolidate ConsFiles ConsOut DistRun.
From Verif.Spec Require Import ConsFiles Consolidate DistRun.
From Verif.Proofs Require Import Names Galfile Ingest ConsFiles ConsOut.
From Coq Require Import Lia List. Import ListNotations.
Local Open Scope list_scope.
Local Open Scope nat_scope.

Lemma cat_name_tile base typ n p : cat_name base typ n p = tile_name base typ n p.
Proof. unfold cat_name, stem, tile_name. rewrite <- !app_assoc. reflexivity. Qed.
Lemma mem_not_form base typ n p : ~ of_form base typ (mem_name base typ n p).
Proof.
  intros (w & five & E & _). unfold mem_name in E. set (a := stem base typ n p) in *. clearbody a. set (b := base ++ s_ "_" ++ w ++ s_ "_" ++ five ++ s_ "_" ++ typ).
  assert (E' : a ++ s_ "_members.fit" = b ++ s_ "_catalog.fit") by (rewrite E; unfold b; rewrite <- !app_assoc; reflexivity).
  apply (f_equal (@rev ascii)) in E'. rewrite !rev_app_distr in E'. discriminate E'.
Qed.
Lemma members_path path base typ n p : members_file (path ++ s_ "/" ++ cat_name base typ n p) = path ++ s_ "/" ++ mem_name base typ n p.
Proof.
  unfold cat_name, mem_name. rewrite !app_assoc. apply members_iff. intros b c E I. unfold stem in E. rewrite !app_assoc in E. change (s_ "_catalog") with (s_ "_catalo" ++ ["g"%char]) in E.
  rewrite !app_assoc in E. apply app_inj_tail in E as [_ <-]. cbn in I. intuition discriminate.
Qed.
Lemma look_in path (d : dir) n c : NoDup (map fst d) -> In (n, c) d -> look path d (path ++ s_ "/" ++ n) = Some c.
Proof.
  unfold look. induction d as [|[m x] d IH]; intros N I; [destruct I|]. cbn [find fst]. inversion N as [|? ? N1 N2]; subst. destruct (str_eqb (path ++ s_ "/" ++ m) (path ++ s_ "/" ++ n)) eqn:E.
  - apply str_eqb_iff in E. apply app_inv_head in E. apply app_inv_head in E. subst m. destruct I as [I|I]; [injection I as ->; reflexivity|]. exfalso. apply N1. cbn [fst]. apply (in_map fst) in I. exact I.
  - destruct I as [I|I]; [|apply IH; assumption]. injection I as -> ->. rewrite (proj2 (str_eqb_iff _ _) eq_refl) in E. discriminate.
Qed.
Lemma look_not path (d : dir) n : ~ In n (map fst d) -> look path d (path ++ s_ "/" ++ n) = None.
Proof.
  unfold look. induction d as [|[m x] d IH]; intros N; [reflexivity|]. cbn [find fst]. destruct (str_eqb (path ++ s_ "/" ++ m) (path ++ s_ "/" ++ n)) eqn:E.
  - apply str_eqb_iff in E. apply app_inv_head in E. apply app_inv_head in E. subst m. exfalso. apply N. left. reflexivity.
  - apply IH. intros I. apply N. right. exact I.
Qed.

Section Run.
  Variables (base typ : str) (n : Z) (out : Z -> option tables) (evs : list event).
  Definition begun (p : Z) : bool := match out p with None => false | Some _ => negb (Nat.eqb (fst (job_after evs p)) 0) end.
  Definition has_mem (p : Z) : bool := match out p with None => false | Some _ => 3 <=? fst (job_after evs p) end.
  Lemma names_of p : map fst (tile_files base typ n out evs p) = (if begun p then [cat_name base typ n p] else []) ++ (if has_mem p then [mem_name base typ n p] else []).
  Proof. unfold tile_files, begun, has_mem. destruct (out p) as [[cs ms]|]; [|reflexivity]. destruct (fst (job_after evs p)) as [|[|[|[|k]]]]; reflexivity. Qed.
  Lemma names_all ps : Permutation (map fst (flat_map (tile_files base typ n out evs) ps)) (map (tile_name base typ n) (filter begun ps) ++ map (mem_name base typ n) (filter has_mem ps)).
  Proof.
    induction ps as [|p ps IH]; [constructor|]. cbn [flat_map filter]. rewrite map_app, names_of, IH. destruct (begun p), (has_mem p); cbn [map app]; rewrite ?cat_name_tile.
    - constructor. apply Permutation_middle.
    - reflexivity.
    - apply Permutation_middle.
    - reflexivity.
  Qed.
  Lemma found_begun path ps d : readable path base n ps -> listing base typ n out evs ps d -> filter begun ps <> [] ->
    exists qs, Permutation (filter begun ps) qs /\ StronglySorted Z.le qs /\ tiles path base typ (map fst d) = Ok (n, map (fun p => (tile_path path base typ n p, p)) qs).
  Proof.
    intros (R1 & R2 & R3 & R4 & R5) (other & P & O & _) N. apply (tiles_ok path base typ n (filter begun ps) (map (mem_name base typ n) (filter has_mem ps) ++ map fst other)); try assumption.
    - intros p I. apply filter_In in I. apply R4, I.
    - intros x I. apply in_app_iff in I as [I|I]; apply in_map_iff in I as (y & <- & I); [apply mem_not_form|apply (O y I)].
    - etransitivity; [apply Permutation_map, P|]. rewrite map_app. rewrite app_assoc. apply Permutation_app_tail. apply names_all.
  Qed.
  Lemma tile_path_cat path p : tile_path path base typ n p = path ++ s_ "/" ++ cat_name base typ n p.
  Proof. unfold tile_path. rewrite cat_name_tile. reflexivity. Qed.
  Lemma mem_inj ps p q : (forall p, In p ps -> (0 <= p < 100000)%Z) -> In p ps -> In q ps -> mem_name base typ n p = mem_name base typ n q -> p = q.
  Proof.
    intros H I J E. unfold mem_name in E. apply app_inv_tail in E. unfold stem in E. do 4 apply app_inv_head in E. apply app_inv_tail in E.
    apply H in I, J. apply (f_equal parse) in E. rewrite !RunAll.fmt_val in E by lia. exact E.
  Qed.
End Run.
(** what the reading of a tile gives *)
Lemma read_ended path base typ n out evs ps d p cs ms : listing base typ n out evs ps d -> In p ps -> out p = Some (cs, ms) -> ended evs p ->
  read_tile path d (tile_path path base typ n p, p) = Ok (mkFile p cs ms).
Proof.
  intros (other & P & _ & N) I O E. unfold read_tile. cbn [fst snd]. rewrite tile_path_cat, members_path.
  assert (F : tile_files base typ n out evs p = [(cat_name base typ n p, CatF cs); (mem_name base typ n p, MemF ms)]).
  { unfold tile_files, ended in *. rewrite O. destruct (fst (job_after evs p)) as [|[|[|[|k]]]]; try lia. reflexivity. }
  assert (G : forall x, In x (tile_files base typ n out evs p) -> In x d). { intros x J. apply (Permutation_in _ (Permutation_sym P)). apply in_or_app. left. apply in_flat_map. eauto. }
  rewrite (look_in path d (cat_name base typ n p) (CatF cs)), (look_in path d (mem_name base typ n p) (MemF ms)); [reflexivity|exact N|apply G; rewrite F; right; left; reflexivity|exact N|apply G; rewrite F; left; reflexivity].
Qed.
Lemma mem_absent base typ n out evs ps d p : (forall p, In p ps -> (0 <= p < 100000)%Z) -> listing base typ n out evs ps d -> In p ps -> fst (job_after evs p) = 2 -> ~ In (mem_name base typ n p) (map fst d).
Proof.
  intros R (other & P & O & _) I K J. apply (Permutation_in _ (Permutation_map fst P)) in J. rewrite map_app in J. apply in_app_iff in J as [J|J].
  - apply (Permutation_in _ (names_all base typ n out evs ps)) in J. apply in_app_iff in J as [J|J]; apply in_map_iff in J as (q & E & J); apply filter_In in J as [J B].
    + apply (mem_not_form base typ n p). rewrite <- E. apply tile_form, R, J.
    + apply (mem_inj base typ n ps) in E; try assumption. subst q. unfold has_mem in B. rewrite K in B. destruct (out p); discriminate.
  - apply in_map_iff in J as (x & E & J). apply (proj2 (O x J) p E).
Qed.
Lemma read_broken path base typ n out evs ps d p : (forall p, In p ps -> (0 <= p < 100000)%Z) -> listing base typ n out evs ps d -> In p ps -> out p <> None -> 1 <= fst (job_after evs p) <= 3 ->
  read_tile path d (tile_path path base typ n p, p) = Err (if Nat.eqb (fst (job_after evs p)) 2 then RuntimeError else OSError).
Proof.
  intros R L I O E. pose proof (mem_absent _ _ _ _ _ _ _ p R L I) as A. destruct L as (other & P & _ & N). unfold read_tile. cbn [fst snd]. rewrite tile_path_cat, members_path. destruct (out p) as [[cs ms]|] eqn:Ou; [|congruence].
  assert (G : forall x, In x (tile_files base typ n out evs p) -> In x d). { intros x J. apply (Permutation_in _ (Permutation_sym P)). apply in_or_app. left. apply in_flat_map. eauto. }
  unfold tile_files in G. rewrite Ou in G. assert (fst (job_after evs p) = 1 \/ fst (job_after evs p) = 2 \/ fst (job_after evs p) = 3) as [K|[K|K]] by lia; rewrite K in *.
  - rewrite (look_in path d (cat_name base typ n p) Unfinished) by (try exact N; apply G; left; reflexivity). reflexivity.
  - rewrite (look_in path d (cat_name base typ n p) (CatF cs)) by (try exact N; apply G; left; reflexivity). rewrite look_not by (apply A; reflexivity). reflexivity.
  - rewrite (look_in path d (cat_name base typ n p) (CatF cs)), (look_in path d (mem_name base typ n p) Unfinished) by (try exact N; apply G; auto using in_eq, in_cons). reflexivity.
Qed.
(** the files that are consolidated when no job is in between *)
Definition file_of (out : Z -> option tables) (p : Z) : pfile := match out p with Some (cs, ms) => mkFile p cs ms | None => mkFile p [] [] end.
Lemma le_lt l : StronglySorted Z.le l -> NoDup l -> StronglySorted Z.lt l.
Proof.
  induction 1 as [|x l S IH F]; intros N; constructor; inversion N as [|? ? N1 N2]; subst; [apply IH, N2|]. rewrite Forall_forall in *. intros y I. specialize (F y I). assert (x <> y) by (intros ->; contradiction). lia.
Qed.
Lemma hpix_of out l : map f_hpix (map (file_of out) l) = l.
Proof. induction l as [|p l IH]; cbn [map]; [reflexivity|]. rewrite IH. unfold file_of. destruct (out p) as [[? ?]|]; reflexivity. Qed.
Lemma run_settled asort q sel os path base typ n out evs ps d d0 : readable path base n ps -> listing base typ n out evs ps d ->
  (forall p, In p ps -> out p <> None -> ended evs p \/ not_begun evs p) -> (exists p, In p ps /\ out p <> None /\ ended evs p) ->
  exists fs, tables_of out (filter (begun out evs) ps) fs /\ cons_run asort q sel os path base typ d d0 = consolidate_all asort (q n) sel os fs d0.
Proof.
  intros R L H (p0 & I0 & O0 & E0). assert (B0 : In p0 (filter (begun out evs) ps)).
  { apply filter_In. split; [exact I0|]. unfold begun, ended in *. destruct (out p0); [|congruence]. destruct (Nat.eqb_spec (fst (job_after evs p0)) 0); [lia|reflexivity]. }
  destruct (found_begun base typ n out evs path ps d R L) as (qs & P & S & T); [intros E; rewrite E in B0; destruct B0|]. exists (map (file_of out) qs).
  assert (Q : forall p, In p qs -> In p ps /\ exists cs ms, out p = Some (cs, ms) /\ ended evs p).
  { intros p I. apply (Permutation_in _ (Permutation_sym P)), filter_In in I as [I B]. split; [exact I|]. unfold begun in B. destruct (out p) as [[cs ms]|] eqn:Ou; [|discriminate].
    exists cs, ms. split; [reflexivity|]. destruct (H p I) as [X|X]; [congruence|exact X|]. unfold not_begun in X. rewrite X in B. discriminate. }
  split.
  - split.
    + rewrite hpix_of. apply le_lt; [exact S|]. apply (Permutation_NoDup P). apply NoDup_filter. apply R.
    + intros p cs ms. split.
      * intros I. apply in_map_iff in I as (p' & E & I). destruct (Q p' I) as (I' & cs' & ms' & Ou & _). unfold file_of in E. rewrite Ou in E. injection E as -> -> ->. split; [apply (Permutation_in _ (Permutation_sym P)), I|exact Ou].
      * intros [I Ou]. apply in_map_iff. exists p. split; [unfold file_of; rewrite Ou; reflexivity|apply (Permutation_in _ P), I].
  - unfold cons_run. rewrite T. rewrite <- mapM_fst with (h := fun p => (tile_path path base typ n p, p)).
    rewrite (mapM_map _ (file_of out)); [reflexivity|]. intros p I. destruct (Q p I) as (I' & cs & ms & Ou & E). unfold file_of. rewrite Ou. apply (read_ended path base typ n out evs ps d p cs ms L I' Ou E).
Qed.
Lemma tables_unique out ps ps' fs fs' : (forall p, out p <> None -> In p ps <-> In p ps') -> tables_of out ps fs -> tables_of out ps' fs' -> fs = fs'.
Proof.
  intros H [S1 T1] [S2 T2]. assert (E : forall f, In f fs <-> In f fs').
  { intros [p cs ms]. rewrite T1, T2. split; intros [I O]; (split; [|exact O]); apply H; try congruence; exact I. }
  clear T1 T2 H. revert fs' S2 E. induction fs as [|f fs IH]; intros fs' S2 E.
  - destruct fs' as [|g fs']; [reflexivity|]. exfalso. apply (proj2 (E g)). left. reflexivity.
  - destruct fs' as [|g fs']; [exfalso; apply (proj1 (E f)); left; reflexivity|]. cbn [map] in S1, S2. inversion S1 as [|? ? S1' F1]; subst. inversion S2 as [|? ? S2' F2]; subst. rewrite Forall_forall in F1, F2.
    assert (M1 : forall x, In x fs -> (f_hpix f < f_hpix x)%Z) by (intros x I; apply F1, in_map, I). assert (M2 : forall x, In x fs' -> (f_hpix g < f_hpix x)%Z) by (intros x I; apply F2, in_map, I).
    assert (G : f = g). { destruct (proj1 (E f) (or_introl eq_refl)) as [X|X]; [auto|]. destruct (proj2 (E g) (or_introl eq_refl)) as [Y|Y]; [auto|]. specialize (M1 g Y). specialize (M2 f X). lia. }
    subst g. f_equal. apply IH; [exact S1'|exact S2'|]. intros x. split; intros I.
    + destruct (proj1 (E x) (or_intror I)) as [<-|X]; [|exact X]. specialize (M1 f I). lia.
    + destruct (proj2 (E x) (or_intror I)) as [<-|X]; [|exact X]. specialize (M2 f I). lia.
Qed.
Lemma mapM_kind {A B} (f : A -> res B) l e1 e2 : (forall x, In x l -> (exists y, f x = Ok y) \/ f x = Err e1 \/ f x = Err e2) -> (exists x e, In x l /\ f x = Err e) -> mapM f l = Err e1 \/ mapM f l = Err e2.
Proof.
  induction l as [|x l IH]; intros H (y & e & I & E); [destruct I|]. cbn [mapM]. destruct (H x (or_introl eq_refl)) as [(z & Z)|[Z|Z]]; rewrite Z; cbn [bind]; auto.
  destruct IH as [W|W]; [intros; apply H; right; assumption| |rewrite W; auto|rewrite W; auto]. destruct I as [->|I]; [congruence|]. eauto.
Qed.
(** a job that was killed in between *)
Lemma killed_stays p evs : 1 <= fst (job_after evs p) -> snd (job_after evs p) = true -> forall more, fst (job_after (evs ++ more) p) = fst (job_after evs p).
Proof.
  intros H K more. unfold job_after in *. rewrite fold_left_app. set (j := fold_left (job_step p) evs (0, false)) in *. clearbody j.
  assert (X : forall j', fst j' = fst j -> snd j' = true -> fst (fold_left (job_step p) more j') = fst j).
  { induction more as [|e more IH]; intros j' E1 E2; [exact E1|]. cbn [fold_left]. apply IH; destruct e as [x|x]; cbn [job_step]; destruct (Z.eqb x p); cbn [fst snd]; try assumption; try reflexivity;
      (assert (B : (1 <=? fst j') = true) by (apply Nat.leb_le; lia); rewrite E2, B; cbn [andb]; assumption). }
  apply X; [reflexivity|exact K].
Qed.
