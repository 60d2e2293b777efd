(** Specification for C166. *)
From Coq Require Import QArith.
From Verif.Base Require Import Py.
From Verif.Model Require Import CentRec.
From Coq Require Import List. Import ListNotations.

(** slot [k] of a cluster row holds galaxy [g] with probability [p] *)
Definition slot_holds (r : crow) (k : nat) (g : gal) (p : Q) : Prop :=
  nth_error (r_ids r) k = Some (g_id g) /\ nth_error (r_cpos r) k = Some (g_pos g) /\ nth_error (r_p r) k = Some p.
(** a row of the right shape before the centres are recorded, nothing marked *)
Definition fresh (slots : nat) (gals : list gal) (r : crow) : Prop :=
  List.length (r_ids r) = slots /\ r_cand r = repeat false (List.length gals).
