(** The probability of a redshift given colors and magnitude, up to a factor. *)
From Coq Require Import Reals.
From Verif.Base Require Import Py.
From Verif.Model Require Import ZredColor LnDist.
Local Open Scope R_scope.

(** luminosity in units of L*, the luminosity function per magnitude, and their product with the volume and the Gaussian of the colors *)
Definition luminosity (p : prior) (mag : R) (i : nat) : R := Rpower 10 (4/10 * (l_mstar p i - mag)).
Definition posterior (p : prior) (chisq : nat -> R) (mag : R) (i : nat) : R :=
  exp (- (1/2) * chisq i) * (Rpower (luminosity p mag i) (l_alpha p + 1) * exp (- luminosity p mag i)) * l_vol p i.
(** the bins that count: those evaluated, below the last, whose probability is more than 1e-5 of that of each other *)
Definition counts (g : zgrid) (p : prior) (chisq : nat -> R) (mag : R) (i : nat) : Prop :=
  (i < zg_n g)%nat /\ In i (zbins g (limited g mag)) /\
  forall m, In m (zbins g (limited g mag)) -> posterior p chisq mag m / 100000 < posterior p chisq mag i.
