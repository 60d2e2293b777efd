(** Calibration of the centering model: centeringcal.py and the reading of its output, configuration.py:785-829. *)
From Coq Require Import Reals QArith String.
From Verif.Base Require Import Py.
From Verif.Model Require Import BkgGen Maskgals.
Local Open Scope R_scope.

(** The magnitude of the brightest satellite: phi1_mmstar_m, phi1_mmstar_slope, phi1_msig_m, phi1_msig_slope *)
Record phi1 := mkPhi { p_m : R; p_slope : R; p_sig_m : R; p_sig_slope : R }.
(** The centering values of the configuration, configuration.py:335-349 *)
Record wcfg := mkW { w_delta0 : R; w_delta1 : R; w_sigma_m : R; w_pivot : R; w_fg : R * R; w_sat : R * R; w_cen : R * R; w_phi : phi1 }.
(** a wcen file, centeringcal.py:406-434; older ones have no phi1 columns *)
Record wfile := mkWF { f_delta0 : R; f_delta1 : R; f_sigma_m : R; f_pivot : R; f_fg : R * R; f_sat : R * R; f_cen : R * R; f_phi : option phi1 }.

(** configuration.py:795-829; no file: the values stay.  Line 825 reads the slope from the column of the mean. *)
Definition set_wcen_vals (f : option wfile) (c : wcfg) : wcfg :=
  match f with
  | None => c
  | Some f => mkW (f_delta0 f) (f_delta1 f) (f_sigma_m f) (f_pivot f) (f_fg f) (f_sat f) (f_cen f)
      (match f_phi f with Some p => mkPhi (p_m p) (p_m p) (p_sig_m p) (p_sig_slope p) | None => w_phi c end)
  end.
(** centeringcal.py:275-281 *)
Definition calibrator (iteration : nat) (rand randsat : option string) (c : wcfg) : res unit :=
  if Nat.eqb iteration 1 then
    if match rand with None => Rltb (snd (w_fg c)) 0 | Some _ => false end then Err RuntimeError
    else if match randsat with None => Rltb (snd (w_sat c)) 0 | Some _ => false end then Err RuntimeError else Ok tt
  else Ok tt.
(** centeringcal.py:331-363: [fitw] is the fit to the clusters of a file (lines 339-356) *)
Definition random_step (fitw : string -> R * R) (rand : option string) (c : wcfg) (f : option string) : wcfg :=
  match f with
  | None => c
  | Some name =>
    let p := fitw name in
    if match rand with Some r => String.eqb name r | None => false end
    then mkW (w_delta0 c) (w_delta1 c) (w_sigma_m c) (w_pivot c) p (w_sat c) (w_cen c) (w_phi c)
    else mkW (w_delta0 c) (w_delta1 c) (w_sigma_m c) (w_pivot c) (w_fg c) p (w_cen c) (w_phi c)
  end.
Definition random_fits (fitw : string -> R * R) (rand randsat : option string) (c : wcfg) : wcfg :=
  fold_left (random_step fitw rand) [rand; randsat] c.
(** centeringcal.py:298-306: [mc] is the result of the Monte Carlo *)
Definition phi_used (mc : phi1) (c : wcfg) : phi1 := if Rltb (p_m (w_phi c)) (- 1000) then mc else w_phi c.
(** centeringcal.py:287-438: the configuration after it and the file; [fitc] and [fitcw] are the fits of lines 398-403 and
    405-413, which use the values of the brightest satellite and of the foreground and satellites *)
Definition run (mc : phi1) (fitw : string -> R * R) (fitc : phi1 -> wcfg -> R * R * R) (fitcw : wcfg -> R * R)
    (rand randsat : option string) (c : wcfg) : wcfg * wfile :=
  let p := phi_used mc c in
  let c' := random_fits fitw rand randsat c in
  let '(d0, d1, s) := fitc p c' in
  (c', mkWF d0 d1 s (w_pivot c') (w_fg c') (w_sat c') (fitcw c') (Some p)).
(** calibrate.py:464-491: one iteration of the calibration, with the values read back; random catalogs only in the first *)
Definition iteration (mc : nat -> phi1) fitw fitc fitcw (rand randsat : string) (i : nat) (c : wcfg) : wcfg * wfile :=
  let files := if Nat.eqb i 1 then (Some rand, Some randsat) else (None, None) in
  let '(c', f) := run (mc i) fitw (fitc i) (fitcw i) (fst files) (snd files) c in
  (set_wcen_vals (Some f) c', f).
(** iterations 1, ..., n: the configuration and the files *)
Fixpoint iterations mc fitw fitc fitcw (rand randsat : string) (n : nat) (c : wcfg) : wcfg * list wfile :=
  match n with
  | O => (c, [])
  | S k => let '(c1, fs) := iterations mc fitw fitc fitcw rand randsat k c in
           let '(c2, f) := iteration mc fitw fitc fitcw rand randsat (S k) c1 in (c2, fs ++ [f])
  end.

(** * The model in the calibration and in use *)
(** a cluster: Lambda, scaleval, and mstar at its redshift *)
Record wcl := mkWC { wl_lam : R; wl_scale : R; wl_mstar : R }.
(** centeringcal.py:158, 393: the mean magnitude that is fitted *)
Definition mbar_fit (c : wcfg) (k : wcl) : R := wl_mstar k + w_delta0 c + w_delta1 c * ln (wl_lam k / wl_scale k / w_pivot c).
(** centering.py:162: the one that is used *)
Definition mbar_use (c : wcfg) (k : wcl) : R := wl_mstar k + w_delta0 c + w_delta1 c * ln (wl_lam k / w_pivot c).
(** centeringcal.py:349, 405-409: the width of ln w *)
Definition sig_fit (sig : R) (c : wcfg) (k : wcl) : R := sig / sqrt (wl_lam k / wl_scale k / w_pivot c).
(** centering.py:222-225, with wcen_maxlambda *)
Definition sig_use (maxlambda sig : R) (c : wcfg) (k : wcl) : R := sig / sqrt (Rmin (wl_lam k) maxlambda / wl_scale k / w_pivot c).

(** * Monte Carlo for the brightest galaxy *)
(** centeringcal.py:480-494: one trial; [st] is a random order of the galaxies, [lam] the richness; the magnitudes of the three
    brightest *)
Definition trial (mag : list Q) (st : list nat) (lam : nat) : res (Q * Q * Q) :=
  let u := firstn (lam - 1) st in
  do mu <- np_take mag u;
  match sortQ mu with m1 :: m2 :: m3 :: _ => Ok (m1, m2, m3) | _ => Err IndexError end.
