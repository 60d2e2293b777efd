(** Model of redmapper/mask.py:194-206 (positions of the mask galaxies) and 224-226 (weight of their redshift offset).  Real
    arithmetic; the random numbers, uniform in [0,1), are arguments. *)
From Coq Require Import Reals.
Local Open Scope R_scope.

(** 194-199: [r] is drawn from the profile, [u] is random *)
Definition place (r u : R) : R * R := let phi := 2 * PI * u in (r * cos phi, r * sin phi).
(** 202-206: [size] is the outer radius of the background annulus *)
Definition place_uniform (size u v : R) : R * R :=
  let r := size * sqrt u in let theta := v * 2 * PI in (r * cos theta, r * sin theta).
(** 226 *)
Definition zred_weight (err d : R) : R := 1 / (sqrt (2 * PI) * err) * exp (- (d * d) / (2 * (err * err))).
