(** Which galaxies are red: in one of the redshift intervals, within [nsig] standard deviations of the red sequence of its colour. *)
From Coq Require Import Reals.
From Verif.Model Require Import SelectRed.
From Coq Require Import List. Import ListNotations.
Local Open Scope R_scope.

Definition is_red (mn sc : nat -> R -> R) (nsig : R) (j : nat) (g : rgal) (z : R) : Prop :=
  Rabs (rg_col g j - mn j z) < nsig * sqrt (rg_err g j * rg_err g j + sc j z * sc j z).
(** z lies strictly inside the k-th of the intervals that the inner bounds [zb] cut [lo, hi] into *)
Definition inside (lo hi : R) (zb : list R) (k : nat) (z : R) : Prop :=
  exists a b, nth_error (lo :: zb ++ [hi]) k = Some a /\ nth_error (lo :: zb ++ [hi]) (S k) = Some b /\ a < z < b.
