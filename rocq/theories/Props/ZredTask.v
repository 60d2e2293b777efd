(** Property C09 (pipeline/zredtask.py), for every schedule [ls] of task steps and crashes. *)
From Verif.Base Require Import Py PyLemmas Fn.
From Verif.Model Require Import ZredTask.
From Verif.Spec Require Import ZredTask.
From Verif.Proofs Require Import ZredTask.

(** From an empty directory the table is only written from complete files; from then on all files stay
    complete and no task is in the middle of one.  Tasks may crash anywhere. *)
Theorem C09_table_safe : forall c ls fs, covered c -> master (run c ls) = Some fs ->
  all_complete c fs /\ (forall p, p < nfile c -> fls (run c ls) p = Complete) /\
  (forall t p l, pcs (run c ls) t <> InFile p l).
Proof. intros c ls fs H. exact (safety c H ls fs). Qed.
Print Assumptions C09_table_safe.

(** If every task runs to its end and gets the global lock, the table is written. *)
Theorem C09_table_written : forall c ls, covered c -> 0 < ntask c ->
  (forall t, t < ntask c -> pcs (run c ls) t = Done true) -> master (run c ls) <> None.
Proof. intros c ls H. exact (liveness c H ls). Qed.
Print Assumptions C09_table_written.

(** A lock is held only by a task that is at work (or was killed there): tasks that ended have given all locks back. *)
Theorem C09_locks_given_back : forall c ls,
  (forall t, plock (run c ls) t = true -> in_pixel (pcs (run c ls) t)) /\
  (forall t, glock (run c ls) = Some t -> in_global (pcs (run c ls) t)).
Proof. intros c ls. exact (lockinv_run c ls). Qed.
Print Assumptions C09_locks_given_back.

Definition ex_cfg : cfg := mkC 2 3 (fun p => if Nat.ltb p 2 then 0 else 1) 60.
Lemma ex_covered : covered ex_cfg.
Proof. intros p H. unfold ex_cfg, own, ntask. destruct (Nat.ltb p 2); lia. Qed.

(** Finding 1: a task that fails to get the global lock in [maxtry] tries simply ends; if it was the
    last one, no table is ever written although no task failed. *)
Theorem C09_lock_timeout_refuted : exists c ls, covered c /\ maxtry c = 60 /\
  (forall t, t < ntask c -> exists b, pcs (run c ls) t = Done b) /\ master (run c ls) = None.
Proof.
  exists ex_cfg, (repeat (Adv 0) 8 ++ repeat (Adv 1) 4 ++ repeat (Adv 1) 60 ++ [Adv 0; Adv 0]).
  split; [exact ex_covered|]. split; [reflexivity|]. split.
  - intros [|[|t]] Ht; [exists true; vm_compute; reflexivity|exists false; vm_compute; reflexivity|cbn in Ht; lia].
  - vm_compute. reflexivity.
Qed.
Print Assumptions C09_lock_timeout_refuted.

(** Finding 2: files left by an earlier run are counted, so a rerun publishes the table from them
    before the other tasks have run. *)
Theorem C09_stale_files_refuted : exists c ls fs, covered c /\
  master (run_from c (start (fun _ => Stale)) ls) = Some fs /\ In Stale fs.
Proof.
  exists ex_cfg, (repeat (Adv 0) 10), [Complete; Complete; Stale].
  split; [exact ex_covered|]. split; [vm_compute; reflexivity|]. cbn. auto.
Qed.
Print Assumptions C09_stale_files_refuted.

Example C09_ex : (* interleaved run: task 1 finishes first, task 0 writes the table *)
  let s := run ex_cfg (repeat (Adv 1) 8 ++ repeat (Adv 0) 11) in
  master s = Some [Complete; Complete; Complete] /\ pcs s 0 = Done true /\ pcs s 1 = Done true.
Proof. vm_compute. auto. Qed.
