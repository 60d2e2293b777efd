(** Specification for C143. *)
From Coq Require Import QArith.
From Verif.Base Require Import Py.
From Verif.Model Require Import Randoms RandArea.
From Coq Require Import List. Import ListNotations.
Local Open Scope Q_scope.

(** how many of the points have a redshift below [z] *)
Fixpoint below (z : Q) (rows : list rpoint) : nat :=
  match rows with [] => O | p :: t => if Qlt_le_dec (p_z p) z then S (below z t) else below z t end.
(** the points that pass the cuts in richness and masked fraction *)
Definition passes (c : wconf) (p : rpoint) : Prop :=
  w_minlambda c < (if w_scaleval c then p_lambda p / p_scale p else p_lambda p) /\ p_maskfrac p < w_maxmask c /\ w_lo c < p_lambda p /\ p_lambda p < w_hi c.
(** [g] points of [rows] below [z] pass the cuts *)
Inductive passing (c : wconf) (z : Q) : list rpoint -> nat -> Prop :=
| passing_nil : passing c z [] 0
| passing_yes p t n : p_z p < z -> passes c p -> passing c z t n -> passing c z (p :: t) (S n)
| passing_no p t n : z <= p_z p \/ ~ passes c p -> passing c z t n -> passing c z (p :: t) n.
