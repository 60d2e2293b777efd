(** Calibration of the cluster redshift correction: ZLambdaCalibrator.run, zlambdacal.py:253-337, over the reals.
    Simplifications: the fit itself (ZLambdaFitter, lines 61-186, with the outlier removal 276-288) is a parameter that gets
    the catalog; a fitted column is taken as the functions of the redshift its splines give (zlambda.py:636-657), without the
    tabulation of these on a grid. *)
From Coq Require Import Reals Lra.
From Verif.Base Require Import Py.
From Verif.Model Require Import ZCorr.
Local Open Scope R_scope.

(** a cluster of the catalog: Lambda, scaleval, z (the spectroscopic one, line 217), z_lambda, z_lambda_e *)
Record zcl := mkZC { zc_lam : R; zc_scale : R; zc_spec : R; zc_zl : R; zc_e : R }.
(** one column of the output: offset_true[:, i], slope_true[:, i], scatter_true[:, i] *)
Record col := mkCol { k_off : R -> R; k_slope : R -> R; k_scat : R -> R }.
(** zlambdacal.py:240-249: the columns not fitted yet are zero *)
Definition zero_col : col := mkCol (fun _ => 0) (fun _ => 0) (fun _ => 0).
(** zlambda.py:646-657 and 702-705: the correction of the structure with [n] columns *)
Definition corr_of (pivot : R) (n : nat) (cols : list col) (lam : R) : corr :=
  mkCorr n (fun i z => k_off (nth i cols zero_col) z + k_slope (nth i cols zero_col) z * ln (lam / pivot))
           (fun i z => Rmax (k_scat (nth i cols zero_col) z) (1 / 1000)).
(** zlambdacal.py:333-337 *)
Definition correct_cl (pivot : R) (n : nat) (cols : list col) (c : zcl) : zcl :=
  match apply_correction (fun _ _ => 1) (corr_of pivot n cols (zc_lam c)) false (zc_zl c) (zc_e c) None with
  | Ok (z, e, _) => mkZC (zc_lam c) (zc_scale c) (zc_spec c) z e
  | Err _ => c
  end.
(** zlambdacal.py:269-337 with fitType 1.  [fit] is the fit of one column from the catalog (lines 272-318); the catalog is set
    back before each correction (line 331).  Returned: the catalogs the fits saw, the columns and the last catalog. *)
Fixpoint calib_from (pivot : R) (n : nat) (fit : list zcl -> col) (orig : list zcl) (left : nat) (cols : list col) (cat : list zcl)
  : list (list zcl) * list col * list zcl :=
  match left with
  | O => ([], cols, cat)
  | S l =>
    let cols' := cols ++ [fit cat] in
    let '(tr, out, last) := calib_from pivot n fit orig l cols' (map (correct_cl pivot n cols') orig) in
    (cat :: tr, out, last)
  end.
Definition calibrate (pivot : R) (n : nat) (fit : list zcl -> col) (orig : list zcl) := calib_from pivot n fit orig n [] orig.
(** lines 295-298: what the fit of a column is given for a cluster: redshift, offset, error, log-richness *)
Definition fit_sample (pivot : R) (c : zcl) : R * R * R * R :=
  (zc_zl c, zc_spec c - zc_zl c, zc_e c, ln ((zc_lam c / zc_scale c) / pivot)).
(** zlambdacal.py:172-173: the offset the fitted column predicts for a cluster of the sample *)
Definition predicted (k : col) (s : R * R * R * R) : R := let '(z, _, _, l) := s in k_off k z + k_slope k z * l.

(** numpy's broadcasting of two shapes (last dimension first) *)
Definition bdim (a b : nat) : option nat := if Nat.eqb a b then Some a else if Nat.eqb a 1 then Some b else if Nat.eqb b 1 then Some a else None.
Fixpoint bcast (s t : list nat) : option (list nat) :=
  match s, t with
  | [], _ => Some t
  | _, [] => Some s
  | a :: s', b :: t' => match bdim a b, bcast s' t' with Some d, Some r => Some (d :: r) | _, _ => None end
  end.
(** assignment of an array to a vector of length [n]: further dimensions have to be one *)
Definition assign1 (n : nat) (s : option (list nat)) : res unit :=
  match s with
  | Some [] => Ok tt
  | Some (d :: r) => if (Nat.eqb d n || Nat.eqb d 1) && forallb (Nat.eqb 1) r then Ok tt else Err ValueError
  | None => Err ValueError
  end.
(** utilities.py:363-364 (the right-hand side at the inner nodes) and 398-401: splint, for node values of shape (nodes, m) if [m]
    is given; the result is assigned to a row of [nbins] values *)
Definition spline_rows (nodes nbins : nat) (m : option nat) : res unit :=
  let inner := match m with Some k => [k; (nodes - 2)%nat] | None => [(nodes - 2)%nat] end in
  let vals := match m with Some k => [k; nbins] | None => [nbins] end in
  do _ <- assign1 (nodes - 2) (bcast inner [(nodes - 2)%nat]); assign1 nbins (bcast [nbins] vals).
(** zlambda.py:636-657: with one iteration the whole array offset_true (one column, zlambdacal.py:243) is given to the spline,
    otherwise one column at a time.  The slopes and scatters, on the other nodes, are treated alike. *)
Definition make_corr (niter nodes nbins : nat) : res unit :=
  if Nat.eqb niter 1 then spline_rows nodes nbins (Some 1%nat)
  else (fix go (l : nat) : res unit := match l with O => Ok tt | S l' => do _ <- spline_rows nodes nbins None; go l' end) niter.
