(** Model of redmapper/galaxy.py:739-765, the parallel branch of append_galaxies: any number of
    processes, each with a queue of (pixel, rows) writes (the groups of its append_galaxies calls, in
    order).  The lock is the atomic test-and-set proved in C08.  Each process step is one of: try the
    lock (747-749), look at the file (751: the file does not exist, or open it and see its rows, 756),
    write (753 create with these rows / 757-758 append to what was seen), remove the lock (761).
    Simplification: a write is one step; row contents are opaque integers. *)
From Verif.Base Require Import Py Fn.

Inductive pc :=
| Want                                  (* before make_lockfile for the head of the queue *)
| Locked                                (* lock obtained *)
| Looked (seen : option (list Z))       (* isfile / open done *)
| Written                               (* data on disk, lock still there *)
| Dead.                                 (* raised RuntimeError (749) or crashed *)

Record st := mkS {
  pcs : nat -> pc;
  todo : nat -> list (nat * list Z);      (* queue of each process *)
  files : nat -> option (list Z);
  locks : nat -> option nat;
  hist : list (nat * (nat * list Z))      (* completed writes, oldest first: (process, (pixel, rows)) *)
}.
Definition init (queue : nat -> list (nat * list Z)) : st :=
  mkS (fun _ => Want) queue (fun _ => None) (fun _ => None) [].

Inductive label :=
| Adv (i : nat)       (* next step of process i; while the lock is taken, a failed try *)
| GiveUp (i : nat)    (* process i exhausted its 300 tries *)
| Crash (i : nat).

Definition set_pc (s : st) i c := mkS (upd (pcs s) i c) (todo s) (files s) (locks s) (hist s).

Definition exec (s : st) (l : label) : st :=
  match l with
  | Adv i =>
      match todo s i with
      | [] => s
      | (p, rows) :: rest =>
          match pcs s i with
          | Want => match locks s p with
                    | None => mkS (upd (pcs s) i Locked) (todo s) (files s) (upd (locks s) p (Some i)) (hist s)
                    | Some _ => s
                    end
          | Locked => set_pc s i (Looked (files s p))
          | Looked seen =>
              let new := match seen with None => rows | Some old => old ++ rows end in
              mkS (upd (pcs s) i Written) (todo s) (upd (files s) p (Some new)) (locks s)
                  (hist s ++ [(i, (p, rows))])
          | Written => mkS (upd (pcs s) i Want) (upd (todo s) i rest) (files s) (upd (locks s) p None) (hist s)
          | Dead => s
          end
      end
  | GiveUp i =>
      match todo s i, pcs s i with
      | (p, _) :: _, Want => match locks s p with Some _ => set_pc s i Dead | None => s end
      | _, _ => s
      end
  | Crash i => set_pc s i Dead
  end.
Definition run queue (ls : list label) : st := fold_left exec ls (init queue).
