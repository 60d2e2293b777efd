(** Model of the chi-squared computation: redmapper/chisq_dist/chisq_dist.c (all of it),
    redmapper/chisq_dist/chisq_dist_lib.py:10-264 (shape checks, choice of mode, result) and the way
    redmapper/redsequence.py:467-562 calls it.

    Exact real arithmetic instead of doubles.  A C [double *] is a function from offsets to reals;
    the offsets are those of the C source.  The linear algebra of gsl (eigenvalues, eigenvectors,
    LU inverse and determinant) is a record of functions on matrices given as lists of rows. *)
From Coq Require Import Reals Lra.
From Verif.Base Require Import Py.
From Verif.Model Require Import BkgGen.
Local Open Scope R_scope.

(** [for (i=0;i<n;i++) acc += f(i)] *)
Fixpoint sumn (n : nat) (f : nat -> R) : R := match n with O => 0 | S k => sumn k f + f k end.

Definition mat : Type := nat -> nat -> R.
Definition vec : Type := nat -> R.
(** the [n] by [n] block of a matrix, as handed to the library *)
Definition tab (n : nat) (m : mat) : list (list R) := map (fun i => map (m i) (seq 0 n)) (seq 0 n).

(** gsl: gsl_eigen_symm, gsl_eigen_symmv (columns of [eigvecs]), gsl_linalg_LU_decomp + _invert,
    gsl_linalg_LU_decomp + _det *)
Record gsl := { eigvals : nat -> list (list R) -> vec; eigvecs : nat -> list (list R) -> mat;
                lu_inv : nat -> list (list R) -> mat; lu_det : nat -> list (list R) -> R }.

(** chisq_dist.h:8 *)
Definition min_eigenval : R := 1 / 1000000.
(** chisq_dist.h:9; chisq_dist_pywrap.c:131 *)
Definition sigint_default : R := 1 / 1000.

(** chisq_dist.c:436-520 check_and_fix_covmat: the eigenvalues below the floor are raised to it and
    the matrix is rebuilt from the eigenvectors, which come from a second library call *)
Definition fix_covmat (L : gsl) (n : nat) (m : mat) : mat :=
  let ev := eigvals L n (tab n m) in
  if existsb (fun i => Rltb (ev i) min_eigenval) (seq 0 n) then
    let ev' := fun i => if Rltb (ev i) min_eigenval then min_eigenval else ev i in
    let q := eigvecs L n (tab n m) in
    let qinv := lu_inv L n (tab n q) in
    let temp := fun i k => sumn n (fun l => q i l * (if Nat.eqb l k then ev' k else 0)) in
    fun i j => sumn n (fun k => temp i k * qinv k j)
  else m.

(** chisq_dist.c:49-54 *)
Definition mrotmat (i k : nat) : R := if Nat.eqb k i then 1 else if Nat.eqb k (i + 1) then -1 else 0.

(** chisq_dist.c:102-114: mrotmat * diag(magerr^2)^T, then mrotmat * that^T *)
Definition cobsmat (nmag : nat) (magerr : vec) : mat :=
  let cobs := fun j k : nat => if Nat.eqb j k then magerr j * magerr j else 0 in
  let temp := fun i k => sumn nmag (fun l => mrotmat i l * cobs k l) in
  fun i j => sumn nmag (fun l => mrotmat i l * temp j l).

(** chisq_dist.c:119-132: the loop over j and k >= j writes (j,k) and (k,j) *)
Definition cimat (slope : vec) (refmagerr : R) (a b : nat) : R :=
  let j := Nat.min a b in let k := Nat.max a b in
  slope j * slope k * refmagerr * refmagerr.

(** what one pass of the loop over [i] uses *)
Record row := { r_cov : mat; r_c : vec; r_slope_ci : vec; r_slope : vec; r_piv : R; r_refmag : R;
                r_refmagerr : R; r_magerr : vec; r_color : vec; r_lup : vec }.

(** the covariance after the two additions (chisq_dist.c:149-155) *)
Definition row_cov (nophotoerr : bool) (ncol : nat) (w : row) : mat := fun j k =>
  r_cov w j k + (if nophotoerr then 0 else cobsmat (ncol + 1) (r_magerr w) j k)
  + cimat (r_slope_ci w) (r_refmagerr w) j k.

(** chisq_dist.c:169-173 *)
Definition row_vdc (w : row) : vec := fun j =>
  (r_c w j + r_slope w j * (r_refmag w - r_piv w)) + r_lup w j - r_color w j.

(** chisq_dist.c:134-183 (the same text at 249-297 and 363-417) *)
Definition row_dist (L : gsl) (do_chisq nophotoerr : bool) (sigint : R) (ncol : nat) (w : row) : R :=
  if existsb (fun j => Rltb (r_cov w j j) (sigint * sigint)) (seq 0 ncol) then
    (if do_chisq then 100000000000 else - 100000000000)
  else
    let m := fix_covmat L ncol (row_cov nophotoerr ncol w) in
    let metric := lu_inv L ncol (tab ncol m) in
    let vdc := row_vdc w in
    let vdcm := fun i => sumn ncol (fun j => metric i j * vdc j) in
    let chisq := sumn ncol (fun i => vdcm i * vdc i) in
    if do_chisq then chisq
    else - (1/2) * chisq - 1/2 * ln (lu_det L ncol (tab ncol m)).

(** the arrays handed to C (chisq_dist.c:13-17) *)
Record arrays := { a_cov : vec; a_c : vec; a_slope : vec; a_piv : vec; a_refmag : vec;
                   a_refmagerr : vec; a_magerr : vec; a_color : vec; a_lup : vec }.

(** chisq_dist.c:98-183: many galaxies, one redshift *)
Definition row0 (ncol : nat) (a : arrays) (i : nat) : row :=
  let nmag := (ncol + 1)%nat in
  {| r_cov := fun j k => a_cov a (j * ncol + k)%nat;
     r_c := fun j => a_c a j; r_slope_ci := fun j => a_slope a j; r_slope := fun j => a_slope a j;
     r_piv := a_piv a 0%nat; r_refmag := a_refmag a i; r_refmagerr := a_refmagerr a i;
     r_magerr := fun j => a_magerr a (i * nmag + j)%nat;
     r_color := fun j => a_color a (i * ncol + j)%nat;
     r_lup := fun j => a_lup a (i * ncol + j)%nat |}.
(** chisq_dist.c:217-297: one galaxy, many redshifts *)
Definition row1 (ncol : nat) (a : arrays) (i : nat) : row :=
  {| r_cov := fun j k => a_cov a (ncol * ncol * i + (j * ncol + k))%nat;
     r_c := fun j => a_c a (i * ncol + j)%nat;
     r_slope_ci := fun j => a_slope a (i * ncol + j)%nat;
     r_slope := fun j => a_slope a (i * ncol + j)%nat;
     r_piv := a_piv a i; r_refmag := a_refmag a 0%nat; r_refmagerr := a_refmagerr a 0%nat;
     r_magerr := fun j => a_magerr a j;
     r_color := fun j => a_color a j;
     r_lup := fun j => a_lup a (i * ncol + j)%nat |}.
(** chisq_dist.c:327-418: many galaxies, each with its redshift.  Line 354 reads [slope[j]*slope[k]],
    without the offset [i*ncol] of line 405. *)
Definition row2 (ncol : nat) (a : arrays) (i : nat) : row :=
  let nmag := (ncol + 1)%nat in
  {| r_cov := fun j k => a_cov a (ncol * ncol * i + (j * ncol + k))%nat;
     r_c := fun j => a_c a (i * ncol + j)%nat;
     r_slope_ci := fun j => a_slope a j;
     r_slope := fun j => a_slope a (i * ncol + j)%nat;
     r_piv := a_piv a i; r_refmag := a_refmag a i; r_refmagerr := a_refmagerr a i;
     r_magerr := fun j => a_magerr a (i * nmag + j)%nat;
     r_color := fun j => a_color a (i * ncol + j)%nat;
     r_lup := fun j => a_lup a (i * ncol + j)%nat |}.
Definition mode_row (mode : nat) : nat -> arrays -> nat -> row :=
  match mode with O => row0 | S O => row1 | _ => row2 end.

(** chisq_dist.c:13 chisq_dist: the [dist] array *)
Definition chisq_dist (L : gsl) (mode : nat) (do_chisq nophotoerr : bool) (sigint : R) (ncol ncalc : nat)
    (a : arrays) : list R :=
  map (fun i => row_dist L do_chisq nophotoerr sigint ncol (mode_row mode ncol a i)) (seq 0 ncalc).

(** the offsets each mode reads, by array *)
Inductive arr := Acov | Ac | Aslope | Apiv | Arefmag | Arefmagerr | Amagerr | Acolor | Alup.
Definition reads (mode ncol ncalc : nat) : list (arr * nat) :=
  let nmag := (ncol + 1)%nat in
  flat_map (fun i =>
    flat_map (fun j => map (fun k =>
       (Acov, (match mode with O => 0 | _ => ncol * ncol * i end + (j * ncol + k))%nat)) (seq 0 ncol)) (seq 0 ncol)
    ++ map (fun j => (Ac, (match mode with O => j | _ => i * ncol + j end)%nat)) (seq 0 ncol)
    ++ map (fun j => (Aslope, (match mode with O => j | _ => i * ncol + j end)%nat)) (seq 0 ncol)
    ++ (match mode with O | S O => [] | _ => map (fun j => (Aslope, j)) (seq 0 ncol) end)
    ++ [(Apiv, match mode with O => O | _ => i end)]
    ++ [(Arefmag, match mode with S O => O | _ => i end)]
    ++ [(Arefmagerr, match mode with S O => O | _ => i end)]
    ++ map (fun j => (Amagerr, match mode with S O => j | _ => (i * nmag + j)%nat end)) (seq 0 nmag)
    ++ map (fun j => (Acolor, match mode with S O => j | _ => (i * ncol + j)%nat end)) (seq 0 ncol)
    ++ map (fun j => (Alup, (i * ncol + j)%nat)) (seq 0 ncol)) (seq 0 ncalc).
Definition sel (a : arrays) (x : arr) : vec :=
  match x with Acov => a_cov a | Ac => a_c a | Aslope => a_slope a | Apiv => a_piv a
             | Arefmag => a_refmag a | Arefmagerr => a_refmagerr a | Amagerr => a_magerr a
             | Acolor => a_color a | Alup => a_lup a end.

(** * chisq_dist_lib.py: shapes *)
Record shapes := { s_cov : list nat; s_c : list nat; s_slope : list nat; s_piv : list nat;
                   s_refmag : list nat; s_refmagerr : option (list nat); s_magerr : list nat;
                   s_color : list nat; s_lup : option (list nat) }.
Definition size (s : list nat) : nat := fold_right Nat.mul 1%nat s.
(** np.atleast_1d *)
Definition atleast_1d (s : list nat) : list nat := match s with [] => [1%nat] | _ => s end.
(** [shape[k]] *)
Definition dim (s : list nat) (k : nat) : res nat :=
  match nth_error s k with Some d => Ok d | None => Err IndexError end.
(** [if bad: raise ValueError] *)
Definition need (b : bool) : res unit := if b then Ok tt else Err ValueError.
(** short-circuit [or] of two mismatches *)
Definition need2 (s : list nat) (a b : nat) : res unit :=
  do d0 <- dim s 0; (if Nat.eqb d0 a then (do d1 <- dim s 1; need (Nat.eqb d1 b)) else Err ValueError).

(** the shapes of the arrays actually handed to C *)
Definition shape_of (s : shapes) (ncol ncalc : nat) (x : arr) : list nat :=
  match x with
  | Acov => s_cov s | Ac => s_c s | Aslope => s_slope s | Apiv => atleast_1d (s_piv s)
  | Arefmag => atleast_1d (s_refmag s)
  | Arefmagerr => match s_refmagerr s with None => [size (s_refmag s)] | Some t => atleast_1d t end
  | Amagerr => s_magerr s | Acolor => s_color s
  | Alup => match s_lup s with None => [ncalc; ncol] | Some t => t end
  end.

(** chisq_dist_lib.py:86-237: the mode, ncol and the number of results.  ([slope.ndim != c.ndim] is
    checked at 121 for every mode.) *)
Definition check_shapes (s : shapes) : res (nat * nat * nat) :=
  do m <- (match s_c s with
           | [n] => Ok (0%nat, n)
           | [_; n] => Ok ((if Nat.eqb (length (s_magerr s)) 1 then 1 else 2)%nat, n)
           | _ => Err ValueError end);
  let '(mode, ncol) := m in
  let nmag := (ncol + 1)%nat in
  do _ <- need (Nat.eqb (length (s_slope s)) (length (s_c s)));
  match mode with
  | O =>
      do d <- dim (s_slope s) 0; do _ <- need (Nat.eqb d ncol);
      do d <- dim (atleast_1d (s_piv s)) 0; do _ <- need (Nat.eqb d 1);
      do _ <- need (Nat.eqb (length (s_cov s)) 2);
      do _ <- need2 (s_cov s) ncol ncol;
      let ngal := size (atleast_1d (s_refmag s)) in
      do _ <- need (Nat.eqb (length (s_magerr s)) 2);
      do _ <- need2 (s_magerr s) ngal nmag;
      do _ <- need (Nat.eqb (length (s_color s)) 2);
      do _ <- need2 (s_color s) ngal ncol;
      do _ <- need2 (shape_of s ncol ngal Alup) ngal ncol;
      do _ <- need (Nat.eqb (size (shape_of s ncol ngal Arefmagerr)) ngal);
      Ok (mode, ncol, ngal)
  | S O =>
      do nz <- dim (s_c s) 0;
      do _ <- need2 (s_slope s) nz ncol;
      do _ <- need (Nat.eqb (size (atleast_1d (s_piv s))) nz);
      do _ <- need (Nat.eqb (length (s_cov s)) 3);
      do d <- dim (s_cov s) 2; do _ <- need (Nat.eqb d nz);
      do _ <- need2 (s_cov s) ncol ncol;
      do _ <- need (Nat.eqb (length (s_magerr s)) 1);
      do _ <- need (Nat.eqb (size (s_magerr s)) nmag);
      do _ <- need (Nat.eqb (length (s_color s)) 1);
      do _ <- need (Nat.eqb (size (s_color s)) ncol);
      do _ <- need2 (shape_of s ncol nz Alup) nz ncol;
      do d <- dim (shape_of s ncol nz Arefmagerr) 0; do _ <- need (Nat.eqb d 1);
      Ok (mode, ncol, nz)
  | _ =>
      do nz <- dim (s_c s) 0;
      do _ <- need2 (s_slope s) nz ncol;
      do _ <- need (Nat.eqb (size (atleast_1d (s_piv s))) nz);
      do _ <- need (Nat.eqb (length (s_cov s)) 3);
      do d <- dim (s_cov s) 2; do _ <- need (Nat.eqb d nz);
      do _ <- need (Nat.eqb (length (s_magerr s)) 2);
      do _ <- need2 (s_magerr s) nz nmag;
      do _ <- need (Nat.eqb (length (s_color s)) 2);
      do _ <- need2 (s_color s) nz ncol;
      do _ <- need2 (shape_of s ncol nz Alup) nz ncol;
      do _ <- need (Nat.eqb (size (shape_of s ncol nz Arefmagerr)) nz);
      Ok (mode, ncol, nz)
  end.

(** chisq_dist_lib.py:253-264: one list, the other, or both; with neither flag the last line reads two
    names that were never assigned *)
Definition compute_result (L : gsl) (calc_chisq calc_lkhd nophotoerr : bool) (mode ncol ncalc : nat) (a : arrays)
  : res (list (list R)) :=
  let d := fun do_chisq => chisq_dist L mode do_chisq nophotoerr sigint_default ncol ncalc a in
  if calc_chisq then Ok (if calc_lkhd then [d true; d false] else [d true])
  else if calc_lkhd then Ok [d false] else Err UnboundLocalError.

(** * redsequence.py:467-562 *)
(** a galaxy as the red sequence sees it *)
Record gal := { g_mag : R; g_magerr : R; g_errs : vec; g_color : vec }.
(** the red sequence at one redshift index *)
Record zrow := { z_cov : mat; z_c : vec; z_slope : vec; z_piv : R }.
(** the tables: rows by redshift index, luptitude correction by magnitude index, redshift index and
    color, and the calibration of the magnitude errors *)
Record rstab := { t_row : nat -> zrow; t_lup : nat -> nat -> vec; t_magind : R -> nat;
                  t_err_int : vec; t_err_slope : vec; t_err_piv : R }.
(** redsequence.py:499-501 and 551-554 *)
Definition scaled_err (t : rstab) (g : gal) : vec := fun j =>
  g_errs g j * (t_err_int t j + t_err_slope t j * (g_mag g - t_err_piv t)).

Definition at2 {A} (n : nat) (f : nat -> nat -> A) : nat -> A := fun p => f (p / n)%nat (p mod n)%nat.
(** redsequence.py:556-562 with one redshift index: mode 0; arrays are row-major *)
Definition call_one_z (t : rstab) (ncol : nat) (gs : nat -> gal) (zi : nat) : arrays :=
  let z := t_row t zi in
  {| a_cov := at2 ncol (z_cov z); a_c := z_c z; a_slope := z_slope z; a_piv := fun _ => z_piv z;
     a_refmag := fun i => g_mag (gs i); a_refmagerr := fun i => g_magerr (gs i);
     a_magerr := at2 (ncol + 1) (fun i => scaled_err t (gs i));
     a_color := at2 ncol (fun i => g_color (gs i));
     a_lup := at2 ncol (fun i => t_lup t (t_magind t (g_mag (gs i))) zi) |}.
(** the covariance stack [covmat[:,:,zinds]]: numpy lays the indexed axis out slowest, and that is the
    layout the C code needs *)
Definition cov_stack (t : rstab) (ncol : nat) (zs : nat -> nat) : vec :=
  at2 (ncol * ncol) (fun i => at2 ncol (z_cov (t_row t (zs i)))).
(** redsequence.py:503-509: one galaxy, many redshift indices: mode 1 *)
Definition call_one_gal (t : rstab) (ncol : nat) (g : gal) (zs : nat -> nat) : arrays :=
  {| a_cov := cov_stack t ncol zs;
     a_c := at2 ncol (fun i => z_c (t_row t (zs i))); a_slope := at2 ncol (fun i => z_slope (t_row t (zs i)));
     a_piv := fun i => z_piv (t_row t (zs i));
     a_refmag := fun _ => g_mag g; a_refmagerr := fun _ => g_magerr g;
     a_magerr := scaled_err t g; a_color := g_color g;
     a_lup := at2 ncol (fun i => t_lup t (t_magind t (g_mag g)) (zs i)) |}.
(** redsequence.py:556-562 with one redshift index per galaxy: mode 2 *)
Definition call_pairs (t : rstab) (ncol : nat) (gs : nat -> gal) (zs : nat -> nat) : arrays :=
  {| a_cov := cov_stack t ncol zs;
     a_c := at2 ncol (fun i => z_c (t_row t (zs i))); a_slope := at2 ncol (fun i => z_slope (t_row t (zs i)));
     a_piv := fun i => z_piv (t_row t (zs i));
     a_refmag := fun i => g_mag (gs i); a_refmagerr := fun i => g_magerr (gs i);
     a_magerr := at2 (ncol + 1) (fun i => scaled_err t (gs i));
     a_color := at2 ncol (fun i => g_color (gs i));
     a_lup := at2 ncol (fun i => t_lup t (t_magind t (g_mag (gs i))) (zs i)) |}.

Definition calculate_one_z (L : gsl) (t : rstab) (lk : bool) (ncol n : nat) (gs : nat -> gal) (zi : nat) : list R :=
  chisq_dist L 0 (negb lk) false sigint_default ncol n (call_one_z t ncol gs zi).
Definition calculate_one_gal (L : gsl) (t : rstab) (lk : bool) (ncol n : nat) (g : gal) (zs : nat -> nat) : list R :=
  chisq_dist L 1 (negb lk) false sigint_default ncol n (call_one_gal t ncol g zs).
Definition calculate_pairs (L : gsl) (t : rstab) (lk : bool) (ncol n : nat) (gs : nat -> gal) (zs : nat -> nat) : list R :=
  chisq_dist L 2 (negb lk) false sigint_default ncol n (call_pairs t ncol gs zs).
