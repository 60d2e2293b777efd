(** What the fit of the corrections of cluster redshifts minimises. *)
From Coq Require Import Reals Lra List. Import ListNotations.
Local Open Scope R_scope.

(** log of a gaussian of variance [v] at [d] *)
Definition log_gauss (v d : R) : R := - (ln (2 * PI * v) / 2) - d ^ 2 / (2 * v).
(** an optimiser that returns as many parameters as it is given, and never a worse point than its start *)
Definition keeps_length (opt : (list R -> R) -> list R -> list R) : Prop := forall f x, List.length (opt f x) = List.length x.
Definition never_worse (opt : (list R -> R) -> list R -> list R) : Prop := forall f x, f (opt f x) <= f x.
