(** Model of redmapper/zred_color.py:281-321: the log density of a galaxy in a bin of redshift.  Exact reals (numpy's exponential
    of a large luminosity underflows to zero, whose logarithm then counts as not finite).  The branch for a single bin (304-306) is
    not modelled: at least two bins are evaluated (C48_bins). *)
From Coq Require Import Reals.
From Verif.Base Require Import Py.
From Verif.Model Require Import BkgGen.
Local Open Scope R_scope.

(** redsequence: alpha, m* and volume factor of each bin *)
Record prior := mkPrior { l_alpha : R; l_mstar : nat -> R; l_vol : nat -> R }.
(** 311-314: the argument of the logarithm *)
Definition weight (p : prior) (mag : R) (i : nat) : R :=
  (Rpower 10 (4/10 * (l_alpha p + 1) * (l_mstar p i - mag)) * exp (- Rpower 10 (4/10 * (l_mstar p i - mag)))) * l_vol p i.
(** 308-319; the logarithm of zero or less is not finite *)
Definition lndensity (p : prior) (chisq : nat -> R) (mag : R) (i : nat) : R :=
  if Rltb 0 (weight p mag i) then - (1/2) * chisq i + ln (weight p mag i) else -100000000000.
