(** What the redshift correction property speaks about. *)
From Coq Require Import Reals.
From Verif.Base Require Import Py.
Local Open Scope R_scope.

(** n points, uniformly spaced by h > 0 *)
Definition runiform (n : nat) (h : R) (g : list R) : Prop :=
  0 < h /\ List.length g = n /\ exists a, forall i x, nth_error g i = Some x -> x = a + h * INR i.
(** an integration rule that is homogeneous in the integrand *)
Definition rhomogeneous (simps : list R -> list R -> R) : Prop :=
  forall k ys xs, simps (map (fun y => y / k) ys) xs = simps ys xs / k.
(** the values have a positive integral on every uniform grid *)
Definition positive_mass (simps : list R -> list R -> R) (vals : list R) : Prop :=
  forall h g, runiform (List.length vals) h g -> 0 < simps vals g.
(** the point of the grid reported as its middle is as far from z as d *)
Definition middle_at (z d : R) (g : list R) : Prop := nth_error g (Nat.div (List.length g - 1) 2) = Some (z + d).
