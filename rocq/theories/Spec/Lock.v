(** Specification of mutual exclusion, on the chronological list of events. *)
From Verif.Base Require Import Py.
From Verif.Model Require Import Lock.

(** [alternates h evs]: with [h] holding the lock at the start ([None]: free), every acquisition
    happens while the lock is free and every release is by the process that holds it. *)
Fixpoint alternates (h : option nat) (evs : list event) : Prop :=
  match evs with
  | [] => True
  | Acquired p :: t => h = None /\ alternates (Some p) t
  | Released p :: t => h = Some p /\ alternates None t
  | Failed _ :: t => alternates h t
  end.
