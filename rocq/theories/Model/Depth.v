(** Model of the photometric error model: redmapper/utilities.py:468-549 (apply_errormodels) and
    redmapper/depth_fitting.py (the depth fit).  Exact reals; scipy's minimiser is not modelled, only
    the function it minimises and the choice of its data. *)
From Coq Require Import Reals Lra QArith Qround.
From Verif.Base Require Import Py.
From Verif.Model Require Import BkgGen.
Local Open Scope R_scope.

Definition pow10 (x : R) : R := Rpower 10 x.
Definition log10 (x : R) : R := ln x / ln 10.
(** depth_fitting.py:30,154: 2.5/ln(10) *)
Definition kmag : R := (25/10) / ln 10.

(** a depth: limiting magnitude, zero point, exposure time, n-sigma *)
Record depth := { d_lim : R; d_zp : R; d_exp : R; d_nsig : R }.
(** utilities.py:503, depth_fitting.py:58,244 *)
Definition f1lim (d : depth) : R := pow10 ((d_lim d - d_zp d) / (- (25/10))).
(** depth_fitting.py:59,245 *)
Definition fsky_raw (d : depth) : R := f1lim d * f1lim d * d_exp d / (d_nsig d * d_nsig d) - f1lim d.
(** utilities.py:504-505 *)
Definition fsky (d : depth) : R := Rmax (1/1000) (fsky_raw d).
(** utilities.py:511, depth_fitting.py:64,99 *)
Definition tflux (d : depth) (mag : R) : R := d_exp d * pow10 ((mag - d_zp d) / (- (25/10))).
(** utilities.py:507-509, asinh magnitudes with softening b *)
Definition tflux_lup (d : depth) (b mag : R) : R :=
  d_exp d * 2 * (b * 1000000000) * sinh (- ln b - (4/10) * ln 10 * mag).
(** utilities.py:513-516 *)
Definition noise (d : depth) (ratio sigma0 t : R) : R :=
  let n := ratio * sqrt (fsky d * d_exp d + t) in
  if Rltb 0 sigma0 then sqrt (n * n + (ln 10 / (25/10) * sigma0 * t) * (ln 10 / (25/10) * sigma0 * t)) else n.

Inductive outmode := OFlux | OLup (b : R) | OMag.
(** utilities.py:468-549 for one entry.  [draw]: None without noise, else the standard normal draw;
    the log-normal scatter (518) is left out.  A magnitude that is not finite — flux not positive —
    becomes 99, with error 99. *)
Definition apply_errormodel (d : depth) (ratio sigma0 : R) (inlup : option R) (out : outmode) (draw : option R) (mag : R) : R * R :=
  let t := match inlup with Some b => tflux_lup d b mag | None => tflux d mag end in
  let n := noise d ratio sigma0 t in
  let flux := match draw with None => t | Some g => t + n * g end in
  match out with
  | OFlux => (flux / d_exp d, n / d_exp d)
  | OLup b =>
      let x := (1/2) * (flux / d_exp d) / (b * 1000000000) in
      (25/10 * log10 (1 / b) - arcsinh x / ((4/10) * ln 10),
       25/10 * (n / d_exp d) / (2 * (b * 1000000000) * ln 10 * sqrt (1 + x * x)))
  | OMag => if Rltb 0 flux then (d_zp d - 25/10 * log10 (flux / d_exp d), kmag * (n / flux)) else (99, 99)
  end.

(** depth_fitting.py:76-114 applyErrorModel without noise: no floor on the sky *)
Definition fit_error (d : depth) (mag : R) : R :=
  kmag * (sqrt (fsky_raw d * d_exp d + tflux d mag) / tflux d mag).

(** depth_fitting.py:39-73 DepthFunction.__call__ at (limmag, exptime) for data (mag, magErr) *)
Definition objective (zp nsig maxp1 : R) (data : list (R * R)) (lim expt : R) : R :=
  let d := {| d_lim := lim; d_zp := zp; d_exp := expt; d_nsig := nsig |} in
  if Rltb expt 0 || Rltb maxp1 expt then 10000000000
  else if Rltb (fsky_raw d) 0 then 10000000000
  else fold_right (fun me s => Rabs (fit_error d (fst me) - snd me) + s) 0 data.

(** * the data of the fit (rationals; None = not finite) *)
Local Open Scope nat_scope.
(** depth_fitting.py:157-162 *)
Definition finite_gals (data : list (option Q * option Q)) : list (Q * Q) :=
  flat_map (fun me => match me with
    | (Some m, Some e) => if Qlt_bool 0 e then [(m, e)] else []
    | _ => [] end) data.
(** int(f * n) for a fraction f *)
Definition frac_index (f : Q) (n : nat) : nat := Z.to_nat (Qfloor (f * inject_Z (Z.of_nat n))).
(** depth_fitting.py:170-172: brighter than the 98th percentile and better than the S/N cut
    ([errmax] = const/snCut); an empty catalog has no percentile *)
Definition usable (asort : list Q -> list nat) (errmax : Q) (gals : list (Q * Q)) : res (list (Q * Q)) :=
  let st := asort (map fst gals) in
  match nth_error st (frac_index (98#100) (length gals)) with
  | None => Err IndexError
  | Some a => match nth_error gals a with
      | None => Err IndexError
      | Some (m, _) => Ok (filter (fun me => Qlt_bool (fst me) m && Qlt_bool (snd me) errmax) gals)
      end
  end.
(** depth_fitting.py:117-178: fail flag 1 when nothing is left; [fit] is the minimiser with its own
    failure *)
Definition calc_error_model {P} (asort : list Q -> list nat) (errmax : Q) (fit : list (Q * Q) -> option P)
    (data : list (option Q * option Q)) : res (option P) :=
  do gd <- usable asort errmax (finite_gals data);
  match gd with [] => Ok None | _ => Ok (fit gd) end.
(** depth_fitting.py:351-361 and 363-394: the survey-wide fit must succeed; a cluster's failing fit
    falls back on it *)
Definition depthlim_init {P} (r : res (option P)) : res P :=
  do o <- r; match o with None => Err RuntimeError | Some p => Ok p end.
Definition calc_maskdepth {P} (init : P) (r : res (option P)) : res P :=
  do o <- r; Ok (match o with None => init | Some p => p end).
