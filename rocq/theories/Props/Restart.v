(** C38: restarts. *)
From Coq Require Import ZArith.
From Verif.Base Require Import Py PyLemmas.
From Verif.Model Require Import Restart.
From Verif.Spec Require Import Restart.
From Verif.Proofs Require Import Restart.

(** For every history of kills none of which hits the middle of an output, a final undisturbed execution leaves the
    files of an uninterrupted run. *)
Theorem C38_restart_partial : forall R ks, quiet R ks empty_disk -> run_full R true (restarts R true ks empty_disk) = expected R.
Proof. intros R ks H. apply good_full, quiet_good; [apply G0|exact H]. Qed.
Print Assumptions C38_restart_partial.
(** A step whose file is complete is never run again. *)
Theorem C38_not_recomputed : forall R d n, In (Comp n) (fst (worker R true d)) ->
  (n = 0 /\ d_first d = Absent) \/ (n = 1 /\ d_like d = Absent) \/ (n = 2 /\ d_perc d = Absent).
Proof. exact comp_skip. Qed.
Print Assumptions C38_not_recomputed.
(** Killed while a file is being written: no number of restarts repairs it. *)
Theorem C38_torn_refuted : forall R ks d,
  (d_first d = Torn -> d_first (run_full R true (restarts R true ks d)) = Torn) /\
  (d_like d = Torn -> d_like (run_full R true (restarts R true ks d)) = Torn) /\
  (d_perc d = Torn -> d_perc (run_full R true (restarts R true ks d)) = Torn).
Proof.
  intros R ks d.
  assert (E : run_full R true (restarts R true ks d) = restarts R true (ks ++ [List.length (fst (worker R true (restarts R true ks d)))]) d).
  { unfold restarts at 2. rewrite fold_left_app. cbn. fold (restarts R true ks d). unfold run_once, crash, run_full. rewrite firstn_all. reflexivity. }
  rewrite E. destruct (restarts_keep R (ks ++ [List.length (fst (worker R true (restarts R true ks d)))]) d) as (A & B & C).
  split; [|split]; intros H; rewrite H in *; [apply A|apply B|apply C]; reflexivity.
Qed.
Print Assumptions C38_torn_refuted.
(** Killed between the percolation catalog and its members: the members never appear. *)
Theorem C38_members_lost_refuted : forall R ks d p, d_perc d = Full p -> d_mem d = Absent -> d_mem (run_full R true (restarts R true ks d)) = Absent.
Proof.
  intros R ks d p Hp Hm.
  assert (E : run_full R true (restarts R true ks d) = restarts R true (ks ++ [List.length (fst (worker R true (restarts R true ks d)))]) d).
  { unfold restarts at 2. rewrite fold_left_app. cbn. fold (restarts R true ks d). unfold run_once, crash, run_full. rewrite firstn_all. reflexivity. }
  rewrite E. destruct (restarts_keep R (ks ++ [List.length (fst (worker R true (restarts R true ks d)))]) d) as (_ & _ & C).
  rewrite <- Hm. apply C. rewrite Hp. reflexivity.
Qed.
Print Assumptions C38_members_lost_refuted.
(** Both states are reached by killing a first execution. *)
Definition ex_runs : runs := mkRuns (Some 1%Z) (fun c => Some (c + 1)%Z) (fun c => Some (c + 1, c + 2)%Z).
(** All of these states are reached by one kill of a run from an empty directory. *)
Theorem C38_reached_refuted : (exists k, d_first (run_once ex_runs true k empty_disk) = Torn) /\
  (exists k, d_like (run_once ex_runs true k empty_disk) = Torn) /\ (exists k, d_perc (run_once ex_runs true k empty_disk) = Torn) /\
  (exists k p, d_perc (run_once ex_runs true k empty_disk) = Full p /\ d_mem (run_once ex_runs true k empty_disk) = Absent).
Proof. split; [exists 2; reflexivity|]. split; [exists 5; reflexivity|]. split; [exists 8; reflexivity|exists 9, 3%Z; split; reflexivity]. Qed.
Print Assumptions C38_reached_refuted.
(** A step that produced nothing leaves no trace and is run again each time. *)
Theorem C38_empty_rerun_refuted : forall R d, r_first R = None -> d_first d = Absent -> In (Comp 0) (fst (worker R true d)) /\ run_full R true d = d.
Proof. intros R d H1 H2. unfold run_full, worker. rewrite H1, H2. cbn. auto. Qed.
Print Assumptions C38_empty_rerun_refuted.
(** Without checking for files, one undisturbed execution repairs any disk. *)
Theorem C38_without_check : forall R d c l p m, r_first R = Some c -> r_like R c = Some l -> r_perc R l = Some (p, m) ->
  run_full R false d = expected R.
Proof. intros R d c l p m E1 E2 E3. rewrite (nocheck R d c l p m E1 E2 E3). unfold expected. rewrite E1, E2, E3. reflexivity. Qed.
Print Assumptions C38_without_check.
Example C38_example : quiet ex_runs [1; 4; 1; 0] empty_disk /\ restarts ex_runs true [1; 4; 1; 0] empty_disk = mkDisk (Full 1) Absent Absent Absent /\
  run_full ex_runs true empty_disk = expected ex_runs.
Proof. split; [|split; reflexivity]. cbn. unfold not_writing. cbn. repeat split; intuition discriminate. Qed.
