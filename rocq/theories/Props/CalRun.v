(** C60 and C77: the calibration. *)
From Coq Require Import QArith.
From Verif.Base Require Import Py PyLemmas.
From Verif.Model Require Import CalRun.
From Verif.Spec Require Import CalRun.
From Verif.Proofs Require Import CalRun.
From Coq Require Import Lqa Lia List ZArith.
Import ListNotations.
Local Open Scope nat_scope.
Local Open Scope list_scope.

(** *** C77: interruptions *)
(** Killed between steps, any number of times, with whatever files were there at the beginning: started again, the
    calibration leaves the same files as without interruption.  The configuration names no redshift correction. *)
Theorem C77_resume_partial gen n ms c0 d : c_zl c0 = NoZl ->
  same_files (finished gen (calibration n) c0 (history gen (calibration n) ms c0 d)) (finished gen (calibration n) c0 d).
Proof.
  intros Hz f. pose proof (calibration_chain n) as C. assert (HR : same_none c0 c0) by (split; [reflexivity|exact Hz]).
  destruct (history_prefix gen _ _ _ c0 d ms C HR 0) as (k & E). cbn [firstn run_steps fold_left snd] in E. rewrite E. unfold finished.
  set (l := calibration n) in *. pose proof (resume gen _ _ _ C c0 c0 d k (length l + k) HR) as H.
  rewrite (firstn_all2 (n := length l + k) l) in H by lia. rewrite (firstn_all2 (n := Nat.max (length l + k) k) l) in H by lia. rewrite H. reflexivity.
Qed.
Print Assumptions C77_resume_partial.
(** Finished steps are not repeated: a file whose step is complete keeps its content in every later execution. *)
Theorem C77_kept gen n s c0 d f : In s (calibration n) -> present d (st_mark s) = true ->
  (forall t, In t (calibration n) -> In f (map w_file (st_writes t)) -> t = s) -> finished gen (calibration n) c0 d f = d f.
Proof.
  intros Hs P U. unfold finished. rewrite run_untouched; [reflexivity|]. intros t Ht G. rewrite (U t Ht G). exact P.
Qed.
Print Assumptions C77_kept.

(** Started without files, every file of the iterations and of the final run is computed with the configuration it is
    meant for, and the files that configuration names are there by then (unless it is the file itself), with the
    contents they have at the end. *)
Theorem C77_configuration gen n zl f : 1 <= n -> made n f ->
  exists phase view before, finished gen (calibration n) (start_cfg zl) no_files f = Some (gen f phase view before) /\ uses f view /\
    (forall g, In (Some g) (inputs view) -> g = f \/ exists v, before g = Some v /\ finished gen (calibration n) (start_cfg zl) no_files g = Some v).
Proof.
  intros Hn M. destruct f as [| | | | | | | | |i k|m k]; cbn in M; try tauto.
  - destruct M as [Hi Hk]. destruct i as [|i]; [lia|]. destruct (pos_step (S i) k (proj1 Hi) Hk) as (s & E & W).
    destruct (split_at n (S i) _ s Hi E) as (l2 & S). destruct (step_value gen n _ s l2 (start_cfg zl) _ S W) as (ph & b & A & B & C). rewrite cfg_before in A.
    exists ph, (st_view s (st_only s (st_pre s (fold_left do_cfg (firstn (pos (Datatypes.S i) k) (iteration (Datatypes.S i))) (cfg_at zl i))))), b.
    split; [exact A|]. split; [apply (view_ok zl i k s E Hk)|]. intros g G. destruct (cfg_inputs zl i k s g E Hk G) as [->|T]; [left; reflexivity|right].
    specialize (C g T). destruct (b g) as [v|] eqn:Eb; [|congruence]. exists v. auto.
  - destruct M as [-> Hk]. destruct n as [|n]; [lia|].
    assert (H : exists s, nth_error (last_steps (S n)) (pos_last k) = Some s /\ In (ItB (S n) k) (wr s)) by (cbn in Hk; each Hk; eexists; (split; [reflexivity|cbn; tauto])).
    destruct H as (s & E & W). destruct (split_last (S n) _ s E) as (l2 & S). destruct (step_value gen _ _ s l2 (start_cfg zl) _ S W) as (ph & b & A & B & C).
    rewrite fold_left_app, cfg_iterations in A. eexists ph, _, b. split; [exact A|]. split.
    + cbn in Hk. each Hk; injection E as <-; cbn; repeat split; discriminate.
    + intros g G. assert (T : exists t, In t ((first_steps ++ flat_map iteration (seq 1 (Datatypes.S n))) ++ firstn (pos_last k) (last_steps (Datatypes.S n))) /\ In g (wr t)).
      { cut (In g (flat_map wr (iteration (Datatypes.S n))) \/ In g (flat_map wr (firstn (pos_last k) (last_steps (Datatypes.S n))))).
        - intros [T|T]; apply in_flat_map in T; destruct T as (t & T1 & T2); exists t; (split; [|exact T2]); rewrite !in_app_iff; [left; right|right; exact T1].
          apply in_flat_map. exists (Datatypes.S n). split; [apply in_seq; lia|exact T1].
        - cbn in Hk. each Hk; injection E as <-; cbn in G; eachq G; try discriminate G; injection G as <-; destruct n; cbn; tauto. }
      right. specialize (C g T). destruct (b g) as [v|] eqn:Eb; [|congruence]. exists v. auto.
Qed.
Print Assumptions C77_configuration.
Example C77_configuration_case : made 2 (It 1 RandFinal) /\ made 2 (It 2 Wcen) /\ made 2 (ItB 2 Final) /\
  uses (It 1 RandFinal) (mk_cfg (Some (1, false)) Random FirstPass (Some (It 1 SubLike)) NoZl (Some SeedTrain) (Some ColorMem) None).
Proof. cbn. intuition (lia || discriminate). Qed.

(** With a redshift correction in the configuration, the runs with random centers are made without it or with it,
    depending on whether the calibration was interrupted before. *)
Theorem C77_correction_refuted : exists gen m, 
  finished gen (calibration 1) (start_cfg UserZl) no_files (It 1 RandFinal) <>
  finished gen (calibration 1) (start_cfg UserZl) (killed gen (calibration 1) m 0 (start_cfg UserZl) no_files) (It 1 RandFinal).
Proof.
  exists (fun _ _ c _ => match c_zl c with UserZl => 1%Z | _ => 0%Z end), 11. vm_compute. discriminate.
Qed.
Print Assumptions C77_correction_refuted.

(** Killed during a step: the red-sequence parameters are written once before the corrections are known and again
    with them.  Killed between the two, the calibration goes on with the first version for ever. *)
Theorem C77_parameters_refuted gen n i c0 : 1 <= i <= n -> exists m view before,
  let d := killed gen (calibration n) m 1 c0 no_files in
  (forall reruns, Nat.iter reruns (finished gen (calibration n) c0) d (It i Pars) = Some (gen (It i Pars) 0 view before)) /\
  finished gen (calibration n) c0 no_files (It i Pars) = Some (gen (It i Pars) 1 view before).
Proof.
  intros Hi. destruct (split_at n i 0 _ Hi eq_refl) as (l2 & E).
  assert (A : snd (run_steps gen (before i 0) (c0, no_files)) (It i Pars) = None) by (apply before_absent; intros s []).
  destruct (run_steps gen (before i 0) (c0, no_files)) as [c1 d1] eqn:ER. cbn [snd] in A.
  set (s := nth 0 (iteration i) (mk_step keep RedGal keep [] keep all)) in *.
  assert (P : present d1 (st_mark s) = false) by (apply present_none; exact A).
  exists (length (before i 0)), (st_view s (st_only s (st_pre s c1))), d1. cbv zeta.
  assert (U : forall d, present d (It i Pars) = true -> finished gen (calibration n) c0 d (It i Pars) = d (It i Pars)).
  { intros d Hd. unfold finished. rewrite run_untouched; [reflexivity|]. intros t Ht G. rewrite (owner_mark i t Pars Pars); auto. apply (owner n t i Pars Ht G). }
  assert (K : killed gen (calibration n) (length (before i 0)) 1 c0 no_files = put_writes gen (st_view s (st_only s (st_pre s c1))) d1 (firstn 1 (st_writes s))).
  { rewrite E. apply (killed_at gen (before i 0) s l2 1 c0 no_files c1 d1 ER P). }
  rewrite K. split.
  - set (d := put_writes gen (st_view s (st_only s (st_pre s c1))) d1 (firstn 1 (st_writes s))).
    assert (Ed : d (It i Pars) = Some (gen (It i Pars) 0 (st_view s (st_only s (st_pre s c1))) d1)).
    { unfold d, put_writes. cbn [firstn st_writes fold_left s iteration nth app]. unfold put_write at 1. cbn [w_file w_clobber w_phase].
      rewrite (present_none _ _ A). cbn [andb]. unfold put. destruct (fname_eq_dec (It i Pars) (It i Pars)); [reflexivity|congruence]. }
    induction reruns as [|r IH]; [exact Ed|]. cbn [Nat.iter nat_rect]. change (nat_rect _ ?x ?f r) with (Nat.iter r (finished gen (calibration n) c0) d) in *.
    rewrite U; [exact IH|apply (present_some _ _ _ IH)].
  - unfold finished. rewrite E, run_app, ER. match goal with |- context [run_steps gen (?x :: l2) ?y] => change (run_steps gen (x :: l2) y) with (run_steps gen l2 (run_step gen s y)) end.
    rewrite run_untouched.
    + unfold run_step. cbn [fst snd]. rewrite P. cbn [snd]. unfold put_writes. cbn [st_writes fold_left s iteration nth app].
      rewrite write_other by (cbn; discriminate). unfold put_write at 1. cbn [w_file w_clobber w_phase negb]. rewrite Bool.andb_false_r.
      unfold put at 1. destruct (fname_eq_dec (It i Pars) (It i Pars)); [reflexivity|congruence].
    + intros t Ht G. rewrite (owner_mark i t Pars Pars); auto; [apply step_mark; unfold marked; cbn; tauto|].
      apply (owner n t i Pars); [rewrite E; apply in_or_app; right; right; exact Ht|exact G].
Qed.
Print Assumptions C77_parameters_refuted.

(** Killed after the catalog was written and before its members were: the members are never written. *)
Theorem C77_members_refuted gen n i c0 : 1 <= i <= n -> exists m,
  let d := killed gen (calibration n) m 1 c0 no_files in
  present d (It i Final) = true /\
  (forall reruns, Nat.iter reruns (finished gen (calibration n) c0) d (It i Members) = None) /\
  present (finished gen (calibration n) c0 no_files) (It i Members) = true.
Proof.
  intros Hi. destruct (split_at n i 5 _ Hi eq_refl) as (l2 & E).
  assert (N : forall k, k = Final \/ k = Members -> forall s, In s (firstn 5 (iteration i)) -> ~ In (It i k) (map w_file (st_writes s))).
  { intros k K s H G. cbn in H. each H; cbn in G; eachq G; destruct K as [-> | ->]; discriminate. }
  assert (A : snd (run_steps gen (before i 5) (c0, no_files)) (It i Final) = None) by (apply before_absent, N; auto).
  assert (B : snd (run_steps gen (before i 5) (c0, no_files)) (It i Members) = None) by (apply before_absent, N; auto).
  destruct (run_steps gen (before i 5) (c0, no_files)) as [c1 d1] eqn:ER. cbn [snd] in A, B.
  set (s := nth 5 (iteration i) (mk_step keep RedGal keep [] keep all)) in *.
  assert (P : present d1 (st_mark s) = false) by (apply present_none; exact A).
  exists (length (before i 5)). cbv zeta.
  assert (K : killed gen (calibration n) (length (before i 5)) 1 c0 no_files = put_writes gen (st_view s (st_only s (st_pre s c1))) d1 (firstn 1 (st_writes s))).
  { rewrite E. apply (killed_at gen (before i 5) s l2 1 c0 no_files c1 d1 ER P). }
  rewrite K.
  set (d := put_writes gen (st_view s (st_only s (st_pre s c1))) d1 (firstn 1 (st_writes s))).
  assert (D1 : present d (It i Final) = true) by (unfold d, put_writes; apply writes_in; cbn; auto).
  assert (D2 : d (It i Members) = None). { unfold d, put_writes. rewrite writes_other; [exact B|]. cbn. intros [H|[]]; discriminate. }
  split; [exact D1|]. split.
  - assert (G : forall r, Nat.iter r (finished gen (calibration n) c0) d (It i Members) = None /\ present (Nat.iter r (finished gen (calibration n) c0) d) (It i Final) = true).
    { induction r as [|r [I1 I2]]; [auto|]. cbn [Nat.iter nat_rect]. change (nat_rect _ ?x ?f r) with (Nat.iter r (finished gen (calibration n) c0) d) in *.
      split; [|apply run_present; exact I2]. unfold finished at 1. rewrite run_untouched; [exact I1|]. intros t Ht G.
      rewrite (owner_mark i t Members Final); auto. apply (owner n t i Members Ht G). }
    intros r. apply G.
  - unfold finished. rewrite E, run_app, ER. match goal with |- context [run_steps gen (?x :: l2) ?y] => change (run_steps gen (x :: l2) y) with (run_steps gen l2 (run_step gen s y)) end. apply run_present.
    unfold run_step. cbn [fst snd]. rewrite P. cbn [snd]. apply writes_in. cbn. auto.
Qed.
Print Assumptions C77_members_refuted.

Example C77_example : length (calibration 3) = 43 /\ present (finished (fun _ _ _ _ => 7%Z) (calibration 3) (start_cfg NoZl) no_files) (ItB 3 Plot) = true.
Proof. vm_compute. auto. Qed.

(** *** C60: the check of the corrected redshifts *)
(** Only the last cluster is looked at: the calibration stops when its redshift is negative ... *)
Theorem C60_last_partial {A} (correct : A -> Q) cat last : (correct last < 0)%Q -> spec_check correct (cat ++ [last]) = Err RuntimeError.
Proof. intros H. unfold spec_check. rewrite map_app, rev_app_distr. cbn. rewrite (proj2 (Qlt_bool_iff _ _) H). reflexivity. Qed.
Print Assumptions C60_last_partial.
(** ... and goes on whenever it is not, whatever the other redshifts are. *)
Theorem C60_others_refuted {A} (correct : A -> Q) cat last : (0 <= correct last)%Q -> spec_check correct (cat ++ [last]) = Ok tt.
Proof. intros H. unfold spec_check. rewrite map_app, rev_app_distr. cbn. rewrite (proj2 (Qlt_bool_false _ _) H). reflexivity. Qed.
Print Assumptions C60_others_refuted.
(** Finding: without any cluster the check itself stops with UnboundLocalError. *)
Theorem C60_no_cluster_refuted {A} (correct : A -> Q) : spec_check correct [] = Err UnboundLocalError.
Proof. reflexivity. Qed.
Print Assumptions C60_no_cluster_refuted.
Example C60_example : spec_check (fun z => z - (1 # 2))%Q [1 # 10; 2 # 10; 6 # 10]%Q = Ok tt /\ spec_check (fun z => z - (1 # 2))%Q [6 # 10; 1 # 10]%Q = Err RuntimeError.
Proof. split; reflexivity. Qed.
