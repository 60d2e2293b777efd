(** Model of redmapper/utilities.py:1017-1074 [make_lockfile] and of the callers'
    release ([os.remove(lockfile)] galaxy.py:763, 928; [os.unlink] zredtask.py:96, 125).

    Any number of processes run the function on one lock file; every system call
    (mkstemp, link, unlink) is one atomic step and steps interleave arbitrarily.
    [os.link] fails iff the target exists (POSIX).  A process may crash between any two calls. *)
From Verif.Base Require Import Py Fn.

Inductive pc :=
| Idle                                   (* not in make_lockfile, not holding *)
| Temp (block : bool) (ctr maxtry : nat) (* temp file made, about to try os.link (lines 1046-1064) *)
| Linked                                 (* os.link succeeded, temp not yet unlinked (1050 / 1065) *)
| GiveUp                                 (* no lock; about to unlink temp (1054 / 1072) *)
| Held                                   (* returned True, caller owns the lock *)
| Dead.                                  (* crashed *)

(** observable events *)
Inductive event := Acquired (p : nat) | Released (p : nat) | Failed (p : nat).

Record st := mkS {
  pcs : nat -> pc;
  lock : option nat;        (* Some p: the lock file exists, linked by process p *)
  temps : nat -> bool;      (* process p's temporary file exists *)
  log : list event          (* newest first *)
}.
Definition init : st := mkS (fun _ => Idle) None (fun _ => false) [].

Inductive label :=
| Call (p : nat) (block : bool) (maxtry : nat)  (* enter make_lockfile: mkstemp (1042) *)
| TryLink (p : nat)                             (* os.link (1049 / 1064) *)
| UnlinkTemp (p : nat)                          (* os.unlink(tempfilename) and return *)
| Release (p : nat)                             (* caller removes the lock file *)
| Crash (p : nat).

Definition step (s : st) (l : label) : option st :=
  match l with
  | Call p block maxtry =>
      match pcs s p with
      | Idle =>
          (* blocking with maxtry = 0 skips the loop (line 1062) and gives up *)
          let pc' := if block && Nat.eqb maxtry 0 then GiveUp else Temp block 0 maxtry in
          Some (mkS (upd (pcs s) p pc') (lock s) (upd (temps s) p true) (log s))
      | _ => None
      end
  | TryLink p =>
      match pcs s p with
      | Temp block ctr maxtry =>
          match lock s with
          | None => Some (mkS (upd (pcs s) p Linked) (Some p) (temps s) (log s))
          | Some _ =>
              (* non-blocking: except branch (1053-1056); blocking: ctr += 1 (1068), loop test (1062) *)
              let pc' := if block then
                           if Nat.ltb (S ctr) maxtry then Temp block (S ctr) maxtry else GiveUp
                         else GiveUp in
              Some (mkS (upd (pcs s) p pc') (lock s) (temps s) (log s))
          end
      | _ => None
      end
  | UnlinkTemp p =>
      match pcs s p with
      | Linked => Some (mkS (upd (pcs s) p Held) (lock s) (upd (temps s) p false) (Acquired p :: log s))
      | GiveUp => Some (mkS (upd (pcs s) p Idle) (lock s) (upd (temps s) p false) (Failed p :: log s))
      | _ => None
      end
  | Release p =>
      match pcs s p with
      | Held => Some (mkS (upd (pcs s) p Idle) None (temps s) (Released p :: log s))
      | _ => None
      end
  | Crash p => Some (mkS (upd (pcs s) p Dead) (lock s) (temps s) (log s))
  end.

(** A schedule: labels that are not enabled are skipped. *)
Definition exec (s : st) (l : label) : st := match step s l with Some s' => s' | None => s end.
Definition run (ls : list label) : st := fold_left exec ls init.
