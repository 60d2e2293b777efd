(** Specification for C110: the columns are applied one after the other, each at the redshift the one before gives. *)
From Coq Require Import Reals.
From Verif.Base Require Import Py.
From Verif.Model Require Import ZCal.
Local Open Scope R_scope.

Fixpoint corrected_z (pivot : R) (cols : list col) (lam z : R) : R :=
  match cols with
  | [] => z
  | k :: t => corrected_z pivot t lam (z + (k_off k z + k_slope k z * ln (lam / pivot)))
  end.
(** the squares of the scatters on the way *)
Fixpoint scatter2 (pivot : R) (cols : list col) (lam z : R) : R :=
  match cols with
  | [] => 0
  | k :: t => (Rmax (k_scat k z) (1 / 1000)) ^ 2 + scatter2 pivot t lam (z + (k_off k z + k_slope k z * ln (lam / pivot)))
  end.
