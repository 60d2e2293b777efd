(** Calibration of the redMaGiC cuts, redmagic/redmagic_calibrate.py: the redshift ranges (383-399, 456-464), the training
    galaxies (529-533), the starting values (575-591), the cost function (230-276), the calibration file (448, 640-643 and
    redmagic_selector.py:41-56).  Rational arithmetic; the spline through the nodes, the limiting magnitude of a luminosity
    and the random numbers are inputs.  esutil.stat.histogram(x, min, max, binsize) counts the x with min <= x <= max in
    int((max - min)/binsize) + 1 bins from min. *)
From Coq Require Import QArith Qround.
From Verif.Base Require Import Py.
From Verif.Model Require Import Util Maskgals.
From Coq Require Import Lia List String. Import ListNotations.
Local Open Scope Q_scope.

(** ** 384-387 and 460-464: the range where the cost is computed, a whole number of bins *)
Definition nbin_of (lo hi bs : Q) : Z := Qceiling ((hi - lo) / bs).
Definition even_range (lo hi bs : Q) : Q * Q := (lo, inject_Z (nbin_of lo hi bs) * bs + lo).
Definition cost_range (z0 zmax buffer bs : Q) : Q * Q := even_range (z0 + buffer) (zmax - buffer) bs.
(** 393-394 *)
Definition z_cushion : Q := 5 # 100.
Definition cut_range (z0 z1 buffer bs : Q) : Q * Q :=
  let c := cost_range z0 z1 buffer bs in (fst c - z_cushion - buffer, snd c + z_cushion + buffer).

(** a galaxy: raw redshift, chi-squared, magnitude, mstar at the raw redshift; mstar at and value of the corrected redshift; the
    sampled one; largest redshift of the volume-limited survey there *)
Record cgal := mkCG { c_z : Q; c_chisq : Q; c_mag : Q; c_mstar0 : Q; c_mstar : Q; c_zm : Q; c_samp : Q; c_zmax : Q }.
(** 389, 395; [faint l]: -2.5 log10 of a luminosity *)
Definition lstar_cushion : Q := 5 # 100.
Definition minQ (l : list Q) : Q := match l with [] => 0 | x :: t => fold_left Qmin2 t x end.
Definition min_lum (eta : Q) : Q := Qmax2 (eta - lstar_cushion) (1 # 10).
(** 397-399 *)
Definition possible (faint : Q -> Q) (etas : list Q) (z0 z1 buffer bs chisqcut : Q) (g : cgal) : bool :=
  let r := cut_range z0 z1 buffer bs in
  Qlt_bool (fst r) (c_z g) && Qlt_bool (c_z g) (snd r) && Qlt_bool (c_chisq g) chisqcut &&
  Qlt_bool (c_mag g) (c_mstar0 g + faint (min_lum (minQ etas))).
(** 526 *)
Definition red_poss (faint : Q -> Q) (eta : Q) (g : cgal) : bool := Qlt_bool (c_mag g) (c_mstar0 g + faint (min_lum eta)).

(** ** 529-533; [order]: argsort of the random numbers *)
Definition training (frac : Q) (zcal : list Q) (order : list nat) : list nat :=
  let gd := np_where (fun z => Qlt_bool 0 z) zcal in
  np_sel gd (firstn (Z.to_nat (Qtrunc (frac * Qn (List.length gd)))) order).

(** ** 588-591 for one node; [n]: n0 * 1e-4, [vol]: test_vol[j], [chisqs]: of the galaxies around the node *)
Definition start_cut (n vol : Q) (chisqs : list Q) : res Q :=
  match chisqs with
  | [] => Err IndexError                         (* st[-1] of an empty array *)
  | _ =>
    let den := map (fun i => Qn i / vol) (seq 0 (List.length chisqs)) in
    let ind := Nat.min (ss_left den n) (List.length chisqs - 1) in
    match nth_error (sortQ chisqs) ind with Some c => Ok c | None => Err IndexError end
  end.

(** ** 247-276 *)
(** [cut z]: the spline through (nodes, pars) *)
Definition chi2max (maxchi : Q) (cut : Q -> Q) (g : cgal) : Q := clipQ (1 # 10) maxchi (cut (c_z g)).
Definition kept (faint : Q -> Q) (maxchi etamin : Q) (cut : Q -> Q) (g : cgal) : bool :=
  Qlt_bool (c_chisq g) (chi2max maxchi cut g) && Qlt_bool (c_mag g) (c_mstar g + faint etamin) && Qlt_bool (c_zm g) (c_zmax g).
(** esutil.stat.histogram *)
Definition histogram (lo hi bs : Q) (xs : list Q) : list nat :=
  let inside := filter (fun x => Qle_bool lo x && Qle_bool x hi) xs in
  map (fun j => List.length (filter (fun x => (Qtrunc ((x - lo) / bs) =? Z.of_nat j)%Z) inside))
      (seq 0 (Z.to_nat (Qtrunc ((hi - lo) / bs) + 1))).
Definition hist_max (r : Q * Q) : Q := snd r - (1 # 10000).
(** 265-269: the error is sqrt(n V)/V, so its square is n/V *)
Definition bin_cost (n : Q) (hv : nat * Q) : Q :=
  let '(h, v) := hv in let d := Qn h / v - n in d * d / (n / v).
Definition cost (faint : Q -> Q) (maxchi etamin n bs : Q) (range : Q * Q) (volume : list Q) (cut : Q -> Q) (pars : list Q) (gals : list cgal) : res Q :=
  let gd := filter (kept faint maxchi etamin cut) gals in
  match gd with
  | [] => Ok 100000000000
  | _ =>
    let h := histogram (fst range) (hist_max range) bs (map c_samp gd) in
    if (List.length h =? List.length volume)%nat then
      let t := Qsum (map (bin_cost n) (combine h volume)) in
      Ok (if existsb (fun p => Qlt_bool p (1 # 10)) pars then t + 10000 else t)
    else Err ValueError                          (* shapes do not match *)
  end.

(** ** the calibration file: its extensions in order, each with the name in it *)
Definition calfile (C : Type) := list (string * C).
(** 640: to_fits_file(clobber=False) adds an extension *)
Definition add_mode {C} (f : calfile C) (name : string) (c : C) : calfile C := (f ++ [(name, c)])%list.
(** redmagic_selector.py:46-54: a dictionary filled in order: the last one of a name stays *)
Definition calib_of {C} (f : calfile C) (name : string) : option C :=
  match find (fun nc => String.eqb (fst nc) name) (rev f) with Some (_, c) => Some c | None => None end.
(** one round of the loop 452-643: what is written, and the calibration that the selector then uses for the mode *)
Fixpoint calibrate {C} (f : calfile C) (modes : list (string * C)) : calfile C * list (option C) :=
  match modes with
  | [] => (f, [])
  | (name, c) :: t =>
      let f1 := add_mode f name c in
      let '(f2, used) := calibrate f1 t in (f2, calib_of f1 name :: used)
  end.
(** 562: redmagic_constchis[i]; its length is not checked (configuration.py:513-514) *)
Definition const_cut (constchis : list Q) (i : nat) : res Q := match nth_error constchis i with Some c => Ok c | None => Err IndexError end.
