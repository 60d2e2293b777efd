(** What the properties about the galaxies of the redMaGiC calibration speak about. *)
From Coq Require Import Reals.
From Verif.Model Require Import RedSamp.
From Coq Require Import List.
Local Open Scope R_scope.

(** luminosity in units of the characteristic one *)
Definition lum (mstar m : R) : R := Rpower 10 ((mstar - m) * 4 / 10).
(** brighter than 0.05 below a luminosity, but at least 0.1 *)
Definition bright (mstar : R -> R) (eta : R) (g : sgal) : Prop := eta - 5/100 < lum (mstar (s_z g)) (s_mag g) /\ 1/10 < lum (mstar (s_z g)) (s_mag g).
(** the galaxies a run looks at *)
Definition of_run (mstar : R -> R) (k : sconf) (r : srun) (g : sgal) : Prop :=
  c_lo k <= s_z g <= r_zmax r /\ s_chisq g < c_chi k /\ bright mstar (r_eta r) g.
