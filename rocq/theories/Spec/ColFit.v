From Coq Require Import Reals Lra.
From Verif.Base Require Import Py.
From Verif.Model Require Import BkgGen Solver Richness ColFit.
From Verif.Spec Require Import Solver.
Local Open Scope R_scope.

(** neighbors as find_neighbors leaves them: no membership yet *)
Definition fresh (c : cluster) : Prop := forall x, In x (k_nbs c) -> n_pmem (cn x) = 0.
(** physical inputs of the filters *)
Definition phys (f : filt) (x : cnb) : Prop :=
  0 <= n_pfree (cn x) <= 1 /\ 0 < n_r (cn x) /\ 0 <= f_u f (cn x) /\ 0 < f_col f (cn x) /\ (forall b, f_b f (cn x) = Bval b -> 0 <= b).
(** the red galaxies near the centre: bright, inside the cut radius and inside the colour range *)
Definition candidate (o : fopt) (x : cnb) : Prop :=
  o_minmag o < n_mag (cn x) < o_maxmag o /\ n_r (cn x) < o_rcut o /\ o_lo o < cn_col x < o_hi o.
Definition near_color (o : fopt) (cent : R) (x : cnb) : Prop :=
  Rabs (cn_col x - cent) < 2 * sqrt (cn_cerr x ^ 2 + o_sigint o ^ 2).
(** there are n different neighbors with a property *)
Definition at_least (n : nat) (P : cnb -> Prop) (l : list cnb) : Prop :=
  exists idx, NoDup idx /\ List.length idx = n /\ forall i, In i idx -> exists x, nth_error l i = Some x /\ P x.
(** the galaxy closest to the centre *)
Definition central (c : cluster) (x : cnb) : Prop :=
  In x (k_nbs c) /\ forall y, In y (k_nbs c) -> n_r (cn x) <= n_r (cn y).
