(** Model of redmapper/pipeline/zredtask.py:42-127 (ZredRunPixelTask.run) run concurrently by tasks
    0..T-1 over the pixel files 0..N-1 of the galaxy table, and of
    redmapper/zred_runner.py:293-342 (make_zred_table) as the final step.
    [own p] is the task whose healpix pixel contains table pixel [p].  Each step is one atomic action
    on the shared directory; tasks interleave arbitrarily and may die at any point (exception or kill).
    Locks are the atomic test-and-set of C08. *)
From Verif.Base Require Import Py Fn.

Inductive fstate := Absent | Stale | Partial | Complete.  (* Stale: left by an earlier run *)

Inductive pc :=
| Start
| Writing (todo : list nat)          (* pixel lock held, files still to write (zred_runner.py:217-290) *)
| InFile (p : nat) (todo : list nat) (* in the middle of fitsio.write of file p (zred_runner.py:289) *)
| WantG (tries : nat)                (* pixel lock removed (zredtask.py:96); waiting for the global lock (101) *)
| GlobF                              (* global lock held; about to glob the zred files (106) *)
| GlobL (nfiles : nat)               (* about to glob the lock files (107) *)
| Make                               (* both tests passed (108-109): about to write the master table (120) *)
| RelG                               (* about to remove the global lock (125) *)
| Done (gotlock : bool)
| Dead.

Record st := mkS {
  pcs : nat -> pc;
  fls : nat -> fstate;
  plock : nat -> bool;
  glock : option nat;
  master : option (list fstate)       (* state of the N files when the table was written *)
}.

Record cfg := mkC { ntask : nat; nfile : nat; own : nat -> nat; maxtry : nat (* 60 in the code *) }.

Definition start (f : nat -> fstate) : st := mkS (fun _ => Start) f (fun _ => false) None None.
Definition init : st := start (fun _ => Absent).

Definition is_file (f : fstate) : bool := match f with Absent => false | _ => true end.
Definition set_pc (s : st) t c := mkS (upd (pcs s) t c) (fls s) (plock s) (glock s) (master s).

(** next action of task [t] *)
Definition adv (c : cfg) (s : st) (t : nat) : st :=
  match pcs s t with
  | Start =>                                             (* 83-86, non-blocking *)
      if plock s t then set_pc s t Dead
      else mkS (upd (pcs s) t (Writing (filter (fun p => Nat.eqb (own c p) t) (seq 0 (nfile c)))))
               (fls s) (upd (plock s) t true) (glock s) (master s)
  | Writing [] =>                                        (* 96 os.unlink(writelock) *)
      mkS (upd (pcs s) t (WantG 0)) (fls s) (upd (plock s) t false) (glock s) (master s)
  | Writing (p :: rest) =>
      mkS (upd (pcs s) t (InFile p rest)) (upd (fls s) p Partial) (plock s) (glock s) (master s)
  | InFile p rest =>
      mkS (upd (pcs s) t (Writing rest)) (upd (fls s) p Complete) (plock s) (glock s) (master s)
  | WantG n =>
      match glock s with
      | None => mkS (upd (pcs s) t GlobF) (fls s) (plock s) (Some t) (master s)
      | Some _ => set_pc s t (if Nat.ltb (S n) (maxtry c) then WantG (S n) else Done false)   (* 127 *)
      end
  | GlobF =>
      set_pc s t (GlobL (List.length (filter (fun p => is_file (fls s p)) (seq 0 (nfile c)))))
  | GlobL n =>
      if Nat.eqb n (nfile c) && forallb (fun u => negb (plock s u)) (seq 0 (ntask c))
      then set_pc s t Make else set_pc s t RelG
  | Make =>                                              (* zred_runner.py:329-331: every file must exist.  The
                                                            row-count test (334) passes also for a file whose header is
                                                            already written, so it is not used here. *)
      if forallb (fun p => is_file (fls s p)) (seq 0 (nfile c))
      then mkS (upd (pcs s) t RelG) (fls s) (plock s) (glock s) (Some (map (fls s) (seq 0 (nfile c))))
      else set_pc s t Dead
  | RelG => mkS (upd (pcs s) t (Done true)) (fls s) (plock s) None (master s)
  | Done _ | Dead => s
  end.

Inductive label := Adv (t : nat) | Crash (t : nat).
Definition exec (c : cfg) (s : st) (l : label) : st :=
  match l with
  | Adv t => if Nat.ltb t (ntask c) then adv c s t else s
  | Crash t => set_pc s t Dead
  end.
Definition run_from (c : cfg) (s : st) (ls : list label) : st := fold_left (exec c) ls s.
Definition run (c : cfg) (ls : list label) : st := run_from c init ls.
