(** What the properties about the medians of the calibration sample speak about. *)
From Coq Require Import Reals.
From Verif.Model Require Import MedCol.
From Coq Require Import List.
Local Open Scope R_scope.

(** luminosity relative to the characteristic one of a galaxy of magnitude [m] *)
Definition lum (mstar m : R) : R := Rpower 10 ((mstar - m) * 4 / 10).
(** the fits keep their bounds and give a value for each start value *)
Definition fit_bounded (L : libs) : Prop := forall z y start lo, length (l_med L z y start (Some lo)) = length start /\ forall v, In v (l_med L z y start (Some lo)) -> lo <= v.
(** a ratio that can be found: 0.5, 0.6, ..., 9.9 *)
Definition on_grid (r : R) : Prop := exists k, (k < 95)%nat /\ r = 5/10 + INR k / 10.
