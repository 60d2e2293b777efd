(** utilities.CubicSpline, utilities.py:331-436, over the reals.  An array is its length and a function of the index.
    Not modelled: the other boundary conditions (yp, lines 365-377), which the package uses nowhere. *)
From Coq Require Import Reals.
From Verif.Base Require Import Py.
From Verif.Model Require Import BkgGen.
Local Open Scope R_scope.

(** the rows of [mat] (lines 354-361): mat[0, :], mat[1, :], mat[2, :] *)
Record band := mkBand { mat0 : nat -> R; mat1 : nat -> R; mat2 : nat -> R }.
(** lines 355-361: mat[1,1:-1], mat[2,0:-2], mat[0,2:], and 363-364 for the natural spline *)
Definition spline_mat (n : nat) (x : nat -> R) : band :=
  mkBand (fun j => if Nat.leb 2 j && Nat.ltb j n then (x j - x (j - 1)%nat) / 6 else 0)
         (fun j => if Nat.leb 1 j && Nat.ltb (j + 1) n then (x (j + 1)%nat - x (j - 1)%nat) / 3
                   else if Nat.eqb j 0 || Nat.eqb j (n - 1) then 1 else 0)
         (fun j => if Nat.ltb (j + 2) n then (x (j + 1)%nat - x j) / 6 else 0).
(** lines 360-362, 365-366 *)
Definition spline_rhs (n : nat) (x y : nat -> R) (j : nat) : R :=
  if Nat.leb 1 j && Nat.ltb (j + 1) n
  then (y (j + 1)%nat - y j) / (x (j + 1)%nat - x j) - (y j - y (j - 1)%nat) / (x j - x (j - 1)%nat) else 0.

(** scipy.linalg.solve_banded((1, 1), mat, bb): the matrix has mat[0, j] above, mat[1, j] on and mat[2, j] below the diagonal in
    column j.  Here: elimination from the last row; any exact method gives the same (Props: C112_system, C112_unique).
    [sweep k i] are the factors by which the solution of rows i, ..., i + k - 1 depends on the unknown before them. *)
Fixpoint sweep (m : band) (bb : nat -> R) (k i : nat) : R * R :=
  match k with
  | O => (0, 0)
  | S k' =>
    let '(al, be) := sweep m bb k' (S i) in
    let sup := match k' with O => 0 | S _ => mat0 m (S i) end in
    let sub := match i with O => 0 | S i' => mat2 m i' end in
    let q := mat1 m i + sup * al in
    (- sub / q, (bb i - sup * be) / q)
  end.
Fixpoint solve_banded (n : nat) (m : band) (bb : nat -> R) (i : nat) : R :=
  match i with
  | O => snd (sweep m bb n 0)
  | S j => fst (sweep m bb (n - i) i) * solve_banded n m bb j + snd (sweep m bb (n - i) i)
  end.
Definition second_derivs (n : nat) (x y : nat -> R) : nat -> R := solve_banded n (spline_mat n x) (spline_rhs n x y).

(** numpy.searchsorted on the left: how many of the (increasing) nodes are below *)
Fixpoint below (x : nat -> R) (n : nat) (v : R) : nat := match n with O => 0 | S k => (below x k v + (if Rltb (x k) v then 1 else 0))%nat end.
(** line 398-399: the interval, clip(searchsorted - 1, 0, npts - 2) *)
Definition interval (x : nat -> R) (n : nat) (v : R) : nat := Nat.min (below x n v - 1) (n - 2).
(** lines 400-405 *)
Definition piece (x y y2 : nat -> R) (lo : nat) (v : R) : R :=
  let hi := (lo + 1)%nat in
  let dx := x hi - x lo in
  let a := (x hi - v) / dx in
  let b := (v - x lo) / dx in
  a * y lo + b * y hi + ((a ^ 3 - a) * y2 lo + (b ^ 3 - b) * y2 hi) * dx ^ 2 / 6.
Definition splint (n : nat) (x y y2 : nat -> R) (v : R) : R := piece x y y2 (interval x n v) v.
(** lines 408-436 *)
Definition spline (fixextrap : bool) (n : nat) (x y : nat -> R) (v : R) : R :=
  let s := splint n x y (second_derivs n x y) v in
  if fixextrap then if Rltb v (x 0%nat) then y 0%nat else if Rltb (x (n - 1)%nat) v then y (n - 1)%nat else s else s.
