(** Property C164 (redmagictask.py: the redMaGiC run as a whole). *)
From Verif.Base Require Import Py PyLemmas Fn.
From Verif.Model Require Import Galfile Ingest RedTask.
From Verif.Spec Require Import Galfile Ingest RedTask.
From Verif.Proofs Require Import Galfile Ingest RedTask.
From Coq Require Import Lia List. Import ListNotations.

(** C164.  When all pixels can be read, the catalog of every mode is the selection from all galaxies, whatever the division into
    pixels; modes with a real mask get random points, ten per galaxy or as many as asked for; nothing else on disk changes, and the log
    file is closed. *)
Theorem C164_complete : forall (Gal Row Rnd : Type) (e : tenv Gal Row Rnd) keep row ps clobber n s, by_galaxy e keep row ->
  te_log e = Ok tt -> te_pix e = true -> NoDup (te_modes e) -> te_read e = pixels_of ps -> ps <> [] -> n <> Some 0 ->
  (forall m k gals, exists pts, te_gen e m k gals = Ok pts) ->
  (clobber = true \/ forall m, In m (te_modes e) -> t_cat s m = None /\ t_rand s m = None) ->
  exists s', run_task e clobber n s = (s', Ok tt) /\ t_open s' = false /\
    (forall m, In m (te_modes e) -> let sel := map (row m) (filter (keep m) (List.concat ps)) in
       t_cat s' m = Some sel /\
       (te_fixed e m = false -> exists pts, t_rand s' m = Some pts /\ te_gen e m (wanted_points n (List.length sel)) sel = Ok pts)) /\
    (forall m, ~ In m (te_modes e) -> t_cat s' m = t_cat s m /\ t_rand s' m = t_rand s m) /\
    (forall m, te_fixed e m = true -> t_rand s' m = t_rand s m).
Proof.
  intros Gal Row Rnd e keep row ps clobber n s HS HL HP N HR NE Hn G HC. unfold run_task. rewrite HL, HP. cbn [negb].
  destruct (existsb _ (te_modes e)) eqn:Ex.
  { exfalso. apply existsb_exists in Ex. destruct Ex as (m & Hm & Ex). apply andb_true_iff in Ex. destruct Ex as [E1 E2]. destruct HC as [->|HC]; [discriminate|]. destruct (HC m Hm) as [C _]. rewrite C in E1. discriminate. }
  destruct (spooled e keep row HS ps [] (t_cat s) N) as (c' & st' & E & X & Y). rewrite app_nil_r in E. rewrite HR, E. cbn [spool_pixels].
  assert (X' : forall m, In m (te_modes e) -> c' m = Some (map (row m) (filter (keep m) (List.concat ps)))). { intros m Hm. rewrite (X m Hm). destruct ps; [congruence|reflexivity]. }
  replace (match n with Some 0 => true | _ => false end) with false by (destruct n as [[|k]|]; congruence).
  destruct (randoms_spec e clobber n c' G (te_modes e) (t_rand s) N) as (r' & Er & Z & W).
  { intros m Hm. rewrite (X' m Hm). discriminate. }
  { destruct HC as [HC|HC]; [left; exact HC|right; intros m Hm _; apply HC, Hm]. }
  rewrite Er. eexists. split; [reflexivity|]. cbn [t_open t_cat t_rand]. split; [reflexivity|]. split; [|split].
  - intros m Hm. split; [apply X', Hm|]. intros F. apply (Z m _ Hm F (X' m Hm)).
  - intros m Hm. split; [apply Y, Hm|apply W; left; exact Hm].
  - intros m F. apply W. right. exact F.
Qed.
Print Assumptions C164_complete.

(** C164.  Without random points the catalogs are the same and no file of random points is touched. *)
Theorem C164_none : forall (Gal Row Rnd : Type) (e : tenv Gal Row Rnd) keep row ps clobber s, by_galaxy e keep row ->
  te_log e = Ok tt -> te_pix e = true -> NoDup (te_modes e) -> te_read e = pixels_of ps -> ps <> [] ->
  (clobber = true \/ forall m, In m (te_modes e) -> t_cat s m = None) ->
  exists s', run_task e clobber (Some 0) s = (s', Ok tt) /\ t_rand s' = t_rand s /\
    (forall m, In m (te_modes e) -> t_cat s' m = Some (map (row m) (filter (keep m) (List.concat ps)))) /\
    (forall m, ~ In m (te_modes e) -> t_cat s' m = t_cat s m).
Proof.
  intros Gal Row Rnd e keep row ps clobber s HS HL HP N HR NE HC. unfold run_task. rewrite HL, HP. cbn [negb].
  destruct (existsb _ (te_modes e)) eqn:Ex.
  { exfalso. apply existsb_exists in Ex. destruct Ex as (m & Hm & Ex). apply andb_true_iff in Ex. destruct Ex as [E1 E2]. destruct HC as [->|HC]; [discriminate|]. rewrite (HC m Hm) in E1. discriminate. }
  destruct (spooled e keep row HS ps [] (t_cat s) N) as (c' & st' & E & X & Y). rewrite app_nil_r in E. rewrite HR, E. cbn [spool_pixels].
  eexists. split; [reflexivity|]. cbn. split; [reflexivity|]. split; [|exact Y]. intros m Hm. rewrite (X m Hm). destruct ps; [congruence|reflexivity].
Qed.
Print Assumptions C164_none.

(** C164.  An existing catalog of any of the modes is never overwritten without clobber: the run raises and leaves all files. *)
Theorem C164_refused : forall (Gal Row Rnd : Type) (e : tenv Gal Row Rnd) n s m, te_log e = Ok tt -> te_pix e = true -> In m (te_modes e) -> t_cat s m <> None ->
  exists s', run_task e false n s = (s', Err RuntimeError) /\ t_cat s' = t_cat s /\ t_rand s' = t_rand s.
Proof.
  intros Gal Row Rnd e n s m HL HP Hm HC. unfold run_task. rewrite HL, HP. cbn [negb].
  assert (Ex : existsb (fun m => exists_ (t_cat s m) && true) (te_modes e) = true). { apply existsb_exists. exists m. split; [exact Hm|]. destruct (t_cat s m); [reflexivity|congruence]. }
  rewrite Ex. eexists. split; [reflexivity|]. auto.
Qed.
Print Assumptions C164_refused.

(** Finding: a run without random points ends without closing the log file; so does every run that raises after its start. *)
Theorem C164_log_refuted : forall (Gal Row Rnd : Type) (e : tenv Gal Row Rnd) clobber n s s' r, te_log e = Ok tt -> run_task e clobber n s = (s', r) ->
  (t_open s' = true <-> r <> Ok tt \/ n = Some 0).
Proof.
  intros Gal Row Rnd e clobber n s s' r HL H. unfold run_task in H. rewrite HL in H. destruct (negb (te_pix e)); [injection H as <- <-; cbn; split; [left; discriminate|reflexivity]|].
  destruct (existsb _ _); [injection H as <- <-; cbn; split; [left; discriminate|reflexivity]|].
  destruct (spool_pixels _ _ _ _ _) as [c [u|x]]; [|injection H as <- <-; cbn; split; [left; discriminate|reflexivity]].
  destruct n as [[|k]|].
  - injection H as <- <-. cbn. split; [right; reflexivity|reflexivity].
  - destruct (make_randoms _ _ _ _ _ _) as [r' [u'|x]]; injection H as <- <-; cbn; (split; [|intros [A|A]; congruence]); [discriminate|left; discriminate].
  - destruct (make_randoms _ _ _ _ _ _) as [r' [u'|x]]; injection H as <- <-; cbn; (split; [|intros [A|A]; congruence]); [discriminate|left; discriminate].
Qed.
Print Assumptions C164_log_refuted.

(** Finding: a pixel that cannot be read ends the run in the middle.  The catalogs then hold the galaxies of the earlier pixels only and
    look complete; a second run without clobber refuses because of them. *)
Theorem C164_interrupted_refuted : forall (Gal Row Rnd : Type) (e : tenv Gal Row Rnd) keep row ps x rest clobber n s, by_galaxy e keep row ->
  te_log e = Ok tt -> te_pix e = true -> NoDup (te_modes e) -> te_read e = pixels_of ps ++ Err x :: rest -> ps <> [] ->
  (clobber = true \/ forall m, In m (te_modes e) -> t_cat s m = None) ->
  exists s', run_task e clobber n s = (s', Err x) /\
    (forall m, In m (te_modes e) -> t_cat s' m = Some (map (row m) (filter (keep m) (List.concat ps)))) /\
    forall (e' : tenv Gal Row Rnd) m, te_log e' = Ok tt -> te_pix e' = true -> In m (te_modes e') -> In m (te_modes e) -> snd (run_task e' false n s') = Err RuntimeError.
Proof.
  intros Gal Row Rnd e keep row ps x rest clobber n s HS HL HP N HR NE HC. unfold run_task at 1. rewrite HL, HP. cbn [negb].
  destruct (existsb _ (te_modes e)) eqn:Ex.
  { exfalso. apply existsb_exists in Ex. destruct Ex as (m & Hm & Ex). apply andb_true_iff in Ex. destruct Ex as [E1 E2]. destruct HC as [->|HC]; [discriminate|]. rewrite (HC m Hm) in E1. discriminate. }
  destruct (spooled e keep row HS ps (Err x :: rest) (t_cat s) N) as (c' & st' & E & X & Y). rewrite HR, E. cbn [spool_pixels].
  eexists. split; [reflexivity|]. cbn [t_cat].
  assert (X' : forall m, In m (te_modes e) -> c' m = Some (map (row m) (filter (keep m) (List.concat ps)))). { intros m Hm. rewrite (X m Hm). destruct ps; [congruence|reflexivity]. }
  split; [exact X'|]. intros e' m HL' HP' Hm' Hm. destruct (C164_refused _ _ _ e' n (mkT c' (t_rand s) true) m HL' HP' Hm') as (s2 & -> & _); [cbn; rewrite (X' m Hm); discriminate|reflexivity].
Qed.
Print Assumptions C164_interrupted_refuted.

(** Finding: an existing file of random points is only noticed after the catalogs have been written.  The run raises, and from then on
    raises because of its own catalogs, even if the file of random points is removed. *)
Theorem C164_randoms_refuted : forall (Gal Row Rnd : Type) (e : tenv Gal Row Rnd) keep row ps n s m0, by_galaxy e keep row ->
  te_log e = Ok tt -> te_pix e = true -> NoDup (te_modes e) -> te_read e = pixels_of ps -> ps <> [] -> n <> Some 0 ->
  (forall m k gals, exists pts, te_gen e m k gals = Ok pts) -> (forall m, In m (te_modes e) -> t_cat s m = None) ->
  In m0 (te_modes e) -> te_fixed e m0 = false -> t_rand s m0 <> None ->
  exists s', run_task e false n s = (s', Err RuntimeError) /\
    (forall m, In m (te_modes e) -> t_cat s' m = Some (map (row m) (filter (keep m) (List.concat ps)))) /\
    forall rands, snd (run_task e false n (mkT (t_cat s') rands false)) = Err RuntimeError.
Proof.
  intros Gal Row Rnd e keep row ps n s m0 HS HL HP N HR NE Hn G HC Hm F R. unfold run_task at 1. rewrite HL, HP. cbn [negb].
  destruct (existsb _ (te_modes e)) eqn:Ex.
  { exfalso. apply existsb_exists in Ex. destruct Ex as (m & Hm' & Ex). apply andb_true_iff in Ex. destruct Ex as [E1 E2]. rewrite (HC m Hm') in E1. discriminate. }
  destruct (spooled e keep row HS ps [] (t_cat s) N) as (c' & st' & E & X & Y). rewrite app_nil_r in E. rewrite HR, E. cbn [spool_pixels].
  assert (X' : forall m, In m (te_modes e) -> c' m = Some (map (row m) (filter (keep m) (List.concat ps)))). { intros m Hm'. rewrite (X m Hm'). destruct ps; [congruence|reflexivity]. }
  replace (match n with Some 0 => true | _ => false end) with false by (destruct n as [[|k]|]; congruence).
  destruct (randoms_stop e n c' G (te_modes e) (t_rand s) m0 N) as (r' & Er); auto; [intros m Hm'; rewrite (X' m Hm'); discriminate|].
  rewrite Er. eexists. split; [reflexivity|]. cbn [t_cat]. split; [exact X'|]. intros rands.
  destruct (C164_refused _ _ _ e n (mkT c' rands false) m0 HL HP Hm) as (s2 & -> & _); [cbn; rewrite (X' m0 Hm); discriminate|reflexivity].
Qed.
Print Assumptions C164_randoms_refuted.

(** C164.  After a run for redshifts over the region [a]: a pixel of the region is read with its galaxies, each with its own redshift; a
    pixel outside of it raises ValueError.  So after a run over part of the sky the redMaGiC run is interrupted as above. *)
Theorem C164_pixels : forall calc g npt nt tab a out, regular npt nt tab -> zred_run calc g npt nt tab a = Ok out ->
  Forall2 (fun x r => (in_run g a x = false -> r = Err ValueError) /\
                      (in_run g a x = true -> exists gals, r = Ok gals /\ Forall2 (own_zred calc) gals (erows x))) tab (zpixels npt nt out).
Proof.
  intros calc g npt nt tab a out R H. pose proof (zred_table _ _ _ _ _ _ _ R H) as F. pose proof (ran_consistent _ _ _ _ _ _ _ R F) as HC.
  assert (RO : regular npt nt out).
  { destruct R as (X1 & X2 & X3). split; [exact X1|]. split.
    - replace (map ehpix out) with (map ehpix tab); [exact X2|]. clear -F. induction F as [|x y ? ? (E & _) F IH]; cbn; [reflexivity|]. rewrite IH, E. reflexivity.
    - intros y Hy. destruct (Forall2_In_r _ _ _ _ F Hy) as (x & Hx & (E1 & E2 & E3 & _)). rewrite E1, E2, E3. apply X3, Hx. }
  apply Forall2_nth'; [unfold zpixels; rewrite map_length; apply (Forall2_len _ _ _ F)|].
  intros k x r Hx Hr. unfold zpixels in Hr. rewrite nth_error_map in Hr. destruct (nth_error out k) as [y|] eqn:Ey; [|discriminate]. cbn in Hr. injection Hr as <-.
  rewrite (zpixel_read npt nt out k y RO HC Ey).
  assert (P : ran calc g a x y). { clear -F Hx Ey. revert k Hx Ey. induction F as [|x' y' ? ? P F IH]; intros [|k] Hx Ey; cbn in *; try discriminate; [congruence|eauto]. }
  destruct P as (E1 & E2 & E3 & E4 & E5). split.
  - intros I. rewrite (E5 I). reflexivity.
  - intros I. destruct (E4 I) as (zs & -> & Fz). eexists. split; [reflexivity|]. rewrite E3. pose proof (zip_own calc (fun _ => true) _ _ Fz) as Z. rewrite !filter_all_true in Z by reflexivity. exact Z.
Qed.
Print Assumptions C164_pixels.

Definition ex_env (ps : list (res (list nat))) : tenv nat nat nat :=
  mkTE (Ok tt) true [0; 1] ps (fun m l => Ok (map (fun x => x + m) (filter (fun x => Nat.ltb (10 * m) x) l))) (fun m => Nat.eqb m 1) (fun _ k _ => Ok (repeat 7 k)).
Definition ex_s : tstate nat nat := mkT (fun _ => None) (fun _ => None) false.
Example C164_ex : by_galaxy (ex_env [Ok [3; 12]; Ok [15]]) (fun m x => Nat.ltb (10 * m) x) (fun m x => x + m) /\
  (let '(s', r) := run_task (ex_env [Ok [3; 12]; Ok [15]]) false (Some 2) ex_s in r = Ok tt /\ t_cat s' 0 = Some [3; 12; 15] /\ t_cat s' 1 = Some [13; 16] /\ t_rand s' 0 = Some [7; 7] /\ t_rand s' 1 = None) /\
  (let '(s', r) := run_task (ex_env [Ok [3; 12]; Err ValueError; Ok [15]]) false (Some 2) ex_s in r = Err ValueError /\ t_cat s' 0 = Some [3; 12] /\ t_open s' = true).
Proof. split; [intros m l; reflexivity|]. split; vm_compute; repeat split. Qed.
(** A galaxy table that is not split into pixels is a ValueError, and nothing is written. *)
Theorem C164_unsplit : forall (Gal Row Rnd : Type) (e : tenv Gal Row Rnd) clobber n s, te_log e = Ok tt -> te_pix e = false ->
  exists s', run_task e clobber n s = (s', Err ValueError) /\ t_cat s' = t_cat s /\ t_rand s' = t_rand s.
Proof. intros Gal Row Rnd e clobber n s HL HP. unfold run_task. rewrite HL, HP. cbn. eexists. split; [reflexivity|]. split; reflexivity. Qed.
Print Assumptions C164_unsplit.
