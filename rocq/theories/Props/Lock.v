(** Property C08 (redmapper/utilities.py make_lockfile): for every schedule [ls] of system calls
    and crashes of any number of processes. *)
From Verif.Base Require Import Py PyLemmas Fn.
From Verif.Model Require Import Lock.
From Verif.Spec Require Import Lock.
From Verif.Proofs Require Import Lock.

(** No two processes hold the lock. *)
Theorem C08_mutual_exclusion : forall ls p q,
  pcs (run ls) p = Held -> pcs (run ls) q = Held -> p = q.
Proof. exact mutex. Qed.
Print Assumptions C08_mutual_exclusion.

(** The history of acquisitions and releases alternates: a process is told it has the lock
    only when nobody else has been told so without releasing since. *)
Theorem C08_history_alternates : forall ls, alternates None (rev (log (run ls))).
Proof. exact run_alternates. Qed.
Print Assumptions C08_history_alternates.

(** While a process holds the lock the lock file exists, and no step of others takes it away. *)
Theorem C08_held_stable : forall ls l p,
  pcs (run ls) p = Held -> l <> Release p -> l <> Crash p ->
  pcs (exec (run ls) l) p = Held /\ lock (exec (run ls) l) = Some p.
Proof. exact held_stable. Qed.
Print Assumptions C08_held_stable.

(** A call that has returned left no temporary file. *)
Theorem C08_no_temporary_left : forall ls p,
  pcs (run ls) p = Idle \/ pcs (run ls) p = Held -> temps (run ls) p = false.
Proof. exact no_temp_left. Qed.
Print Assumptions C08_no_temporary_left.

(** A non-blocking call fails exactly if the lock file exists when it tries. *)
Theorem C08_nonblocking : forall ls p c m,
  pcs (run ls) p = Temp false c m ->
  (lock (run ls) = None -> pcs (exec (run ls) (TryLink p)) p = Linked) /\
  (forall h, lock (run ls) = Some h -> pcs (exec (run ls) (TryLink p)) p = GiveUp).
Proof. exact nonblocking_outcome. Qed.
Print Assumptions C08_nonblocking.

(** A blocking call retries up to [maxtry] times and then gives up. *)
Theorem C08_blocking : forall ls p c m,
  pcs (run ls) p = Temp true c m -> c < m /\
  (lock (run ls) = None -> pcs (exec (run ls) (TryLink p)) p = Linked) /\
  (forall h, lock (run ls) = Some h ->
     (S c = m -> pcs (exec (run ls) (TryLink p)) p = GiveUp) /\
     (S c < m -> pcs (exec (run ls) (TryLink p)) p = Temp true (S c) m)).
Proof. exact blocking_outcome. Qed.
Print Assumptions C08_blocking.

Example C08_ex : (* two processes contend, the second waits and gets the lock after the release *)
  let s := run [Call 1 true 3; Call 2 true 3; TryLink 1; TryLink 2; UnlinkTemp 1; TryLink 2;
                Release 1; TryLink 2; UnlinkTemp 2] in
  pcs s 2 = Held /\ rev (log s) = [Acquired 1; Released 1; Acquired 2].
Proof. vm_compute. auto. Qed.
