(** Specification for C148 and C149. *)
From Coq Require Import Reals.
From Verif.Base Require Import Py.
From Coq Require Import List. Import ListNotations.
Local Open Scope R_scope.

(** the radius of a cluster of richness [lambda] *)
Definition cluster_radius (r0 beta lambda : R) : R := r0 * Rpower (lambda / 100) beta.
(** [x] lies between two neighbours of the list, at most [step] apart *)
Definition bracketed (l : list R) (step x : R) : Prop :=
  exists i a b, nth_error l i = Some a /\ nth_error l (S i) = Some b /\ b - a = step /\ a <= x <= b.
(** squared distance on the flat sky, in the units of the declination *)
Definition sky_distance2 (ra dec ra' dec' : R) : R := Rsqr ((ra' - ra) * cos (dec * (PI / 180))) + Rsqr (dec' - dec).
