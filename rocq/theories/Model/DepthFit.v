(** Model of the fit of a depth: redmapper/depth_fitting.py:180-281 (calcErrorModel after the choice of its data, which is in
    Model/Depth.v) and the noisy branch of applyErrorModel, 76-114.  Real arithmetic; the columns' single precision is left out. *)
From Coq Require Import Reals Lra QArith Qreals.
From Verif.Base Require Import Py.
From Verif.Model Require Import BkgGen Maskgals Depth ColFit.
From Coq Require Import List. Import ListNotations.

(** ** the start, over the rationals *)
(** depth_fitting.py:184-192: the median magnitude of the galaxies with errors between [lo] = const/nSig and [hi] = 1.1 const/nSig if
    there are three or more, else the 95th percentile of all *)
Definition start_mag (lo hi : Q) (gd : list (Q * Q)) : res Q :=
  let test := map fst (filter (fun me => Qlt_bool lo (snd me) && Qlt_bool (snd me) hi) gd) in
  if (3 <=? length test)%nat then Ok (medianQ test)
  else match nth_error (sortQ (map fst gd)) (frac_index (95#100) (length gd)) with None => Err IndexError | Some m => Ok m end.

Local Open Scope R_scope.
(** depth_fitting.py:199-204 *)
Definition exp_lo (zp : R) : R := 1 / pow10 ((zp - 225/10) / (25/10)).
Definition exp_hi (zp : R) : R := 10000 / pow10 ((zp - 225/10) / (25/10)).
Definition bin_size (zp : R) : R := (ln (exp_hi zp) - ln (exp_lo zp)) / (20 - 1).
Definition exp_time (zp : R) (i : nat) : R := exp (INR i * bin_size zp) * exp_lo zp.
(** depth_fitting.py:206-214 *)
Definition start_exp (zp nsig : R) (data : list (R * R)) (lim : R) : res R :=
  do k <- argminR (map (fun i => objective zp nsig (exp_time zp i * 2) data lim (exp_time zp i)) (seq 0 20));
  Ok (exp_time zp k).

(** the parameters that are returned: 231-245 *)
Record dpars := mkDP { dp_exp : R; dp_zp : R; dp_lim : R; dp_nsig : R; dp_flux : R; dp_fsky : R; dp_frac : R }.
(** depth_fitting.py:248-251: the model's error for every galaxy of the fit *)
Definition frac_out (flux fsky expt zp : R) (data : list (R * R)) : R :=
  let err m := let t := expt * pow10 ((m - zp) / (- (25/10))) in kmag * (sqrt (fsky * expt + t) / t) in
  INR (length (filter (fun me => Rltb (5/1000) (Rabs (err (fst me) - snd me))) data)) / INR (length data).
(** depth_fitting.py:240-251 *)
Definition pars_of (zp nsig : R) (data : list (R * R)) (p : R * R) : dpars :=
  let flux := pow10 ((fst p - zp) / (- (25/10))) in
  let fsky := flux * flux * snd p / (nsig * nsig) - flux in
  mkDP (snd p) zp (fst p) nsig flux fsky (frac_out flux fsky (snd p) zp data).
(** depth_fitting.py:181-251: [fmin] is scipy's minimiser; None when it does not converge *)
Definition fit_depth (fmin : (R * R -> R) -> R * R -> option (R * R)) (zp nsig : R) (lim0 : R) (data : list (R * R)) : res (option dpars) :=
  do t0 <- start_exp zp nsig data lim0;
  Ok (match fmin (fun p => objective zp nsig (10 * t0) data (fst p) (snd p)) (lim0, t0) with
      | None => None
      | Some p => Some (pars_of zp nsig data p)
      end).
(** depth_fitting.py:279-281: the medians of the bootstrap trials *)
Definition use_boot (medlim medexp : R) (d : dpars) : dpars :=
  mkDP medexp (dp_zp d) medlim (dp_nsig d) (dp_flux d) (dp_fsky d) (dp_frac d).
(** depth_fitting.py:99-111 with noise: numpy.random.normal(n) is one draw about n; [g] is its standard normal part *)
Definition noisy_fluxes (d : dpars) (g : R) (mags : list R) : list R :=
  map (fun m => let t := dp_exp d * pow10 ((m - dp_zp d) / (- (25/10))) in
                t + sqrt (dp_fsky d * dp_exp d + t) * (INR (length mags) + g)) mags.
