(** What the chi-squared of a galaxy at a redshift is. *)
From Coq Require Import Reals Lra.
From Verif.Base Require Import Py.
From Verif.Model Require Import Chisq.
Local Open Scope R_scope.

(** quadratic form of a matrix, length of a vector *)
Definition qform (n : nat) (m : mat) (x : vec) : R := sumn n (fun i => x i * sumn n (fun j => m i j * x j)).
Definition norm2 (n : nat) (x : vec) : R := sumn n (fun i => x i * x i).
Definition symmetric (n : nat) (m : mat) : Prop := forall i j, (i < n)%nat -> (j < n)%nat -> m i j = m j i.
Definition psd (n : nat) (m : mat) : Prop := forall x, 0 <= qform n m x.
Definition mvec (n : nat) (m : mat) (x : vec) : vec := fun i => sumn n (fun j => m i j * x j).
Definition nonsingular (n : nat) (m : mat) : Prop :=
  forall x, (forall i, (i < n)%nat -> mvec n m x i = 0) -> forall i, (i < n)%nat -> x i = 0.
(** a matrix is at least [m] times the identity *)
Definition above (n : nat) (m : mat) (lam : R) : Prop := forall x, lam * norm2 n x <= qform n m x.

(** what gsl is trusted for *)
Record gsl_ok (n : nat) (L : gsl) : Prop := {
  (* the LU inverse of a nonsingular matrix solves every system *)
  inv_solves : forall m, nonsingular n m -> forall x i, (i < n)%nat ->
     mvec n m (mvec n (lu_inv L n (tab n m)) x) i = x i;
  (* eigenvectors of a symmetric matrix: orthonormal columns *)
  vecs_orth : forall m, symmetric n m -> forall a b, (a < n)%nat -> (b < n)%nat ->
     sumn n (fun i => eigvecs L n (tab n m) i a * eigvecs L n (tab n m) i b) = if Nat.eqb a b then 1 else 0;
  (* eigenvalues of a symmetric matrix: each belongs to a nonzero vector, and the smallest bounds the form *)
  vals_vec : forall m, symmetric n m -> forall i, (i < n)%nat -> exists v,
     0 < norm2 n v /\ forall k, (k < n)%nat -> mvec n m v k = eigvals L n (tab n m) i * v k;
  vals_bound : forall m lam, symmetric n m -> (forall i, (i < n)%nat -> lam <= eigvals L n (tab n m) i) -> above n m lam;
  (* the determinant of a positive definite matrix is positive *)
  det_pos : forall m, symmetric n m -> (forall x, 0 < norm2 n x -> 0 < qform n m x) -> 0 < lu_det L n (tab n m) }.

(** one galaxy at one redshift, from the galaxy and the row of the table alone *)
Definition pair_row (t : rstab) (g : gal) (zi : nat) : row :=
  {| r_cov := z_cov (t_row t zi); r_c := z_c (t_row t zi);
     r_slope_ci := z_slope (t_row t zi); r_slope := z_slope (t_row t zi);
     r_piv := z_piv (t_row t zi); r_refmag := g_mag g; r_refmagerr := g_magerr g;
     r_magerr := fun j => g_errs g j * (t_err_int t j + t_err_slope t j * (g_mag g - t_err_piv t)); r_color := g_color g;
     r_lup := t_lup t (t_magind t (g_mag g)) zi |}.
Definition pair_value (L : gsl) (t : rstab) (lk : bool) (ncol : nat) (g : gal) (zi : nat) : R :=
  row_dist L (negb lk) false sigint_default ncol (pair_row t g zi).

(** the difference of neighbouring bands: x_k - x_{k-1} with x_{-1} = x_n = 0 *)
Definition band_diff (n : nat) (x : vec) (k : nat) : R :=
  (if Nat.ltb k n then x k else 0) - (match k with O => 0 | S l => x l end).

(** every diagonal entry reaches the intrinsic scatter floor *)
Definition passes_sigint (sigint : R) (ncol : nat) (w : row) : Prop :=
  forall j, (j < ncol)%nat -> sigint * sigint <= r_cov w j j.
(** the three shapes the checks leave open *)
Definition plain (s : shapes) : Prop :=
  length (atleast_1d (s_piv s)) = 1%nat /\ (forall t, s_lup s = Some t -> length t = 2%nat) /\
  (forall t, s_refmagerr s = Some t -> (length t <= 1)%nat).
