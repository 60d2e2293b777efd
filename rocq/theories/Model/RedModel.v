(** Model of redmapper/calibration/selectspecred.py:89-188 (the mean color and scatter of the red sequence, one color mode at a
    time) and run_colormem.py:79-89 (the red color of a cluster in the first member run).  Rational arithmetic.  Parameters: the
    initial colors (redGalInitialColors), the fitters and CubicSpline.  The color modes are taken as counts (a negative mode of
    Python counts from the end). *)
From Coq Require Import QArith Qround Qabs.
From Verif.Base Require Import Py.
From Verif.Model Require Import Richness.
From Coq Require Import List. Import ListNotations.
Local Open Scope nat_scope.

(** a galaxy with a spectrum: redshift, colors and their errors, errors of the magnitudes *)
Record sgal := mkSG { g_z : Q; g_col : nat -> Q; g_err : nat -> Q; g_merr : nat -> Q }.
(** a galaxy in the fit of 170: redshift, color, the two magnitude errors, truncation *)
Record fitrow := mkFR { f_z : Q; f_c : Q; f_e : Q * Q; f_trunc : Q }.
(** redGalInitialColors of color j; EcgmmFitter (offsets and errors; mu[1] and sigma[1] returned); CubicSpline; MedZFitter (nodes,
    sample, start); RedSequenceFitter (nodes, sample, mean, slope, scatter) fitted for the mean, the scatter and both *)
Record fits := mkFits {
  t_init : nat -> Q -> Q;
  t_mix : list (Q * Q) -> Q * Q;
  t_spl : list Q -> list Q -> Q -> Q;
  t_med : list Q -> list (Q * Q) -> list Q -> list Q;
  t_mean : list Q -> list fitrow -> list Q -> list Q -> list Q -> list Q;
  t_scat : list Q -> list fitrow -> list Q -> list Q -> list Q -> list Q;
  t_both : list Q -> list fitrow -> list Q -> list Q -> list Q -> list Q * list Q }.

(** 116-117: delta[st[int(f * delta.size)]] *)
Definition at_fraction (st : list nat) (delta : list Q) (f : Q) : res Q :=
  match nth_error st (Z.to_nat (Qfloor (f * inject_Z (Z.of_nat (List.length delta))))) with
  | Some i => match nth_error delta i with Some d => Ok d | None => Err IndexError end
  | None => Err IndexError
  end.
(** 111-119: the offsets from the initial color without the tails, with their errors *)
Definition trimmed (asort : list Q -> list nat) (T : fits) (j : nat) (gals : list sgal) : res (list (Q * Q)) :=
  let delta := map (fun g => (g_col g j - t_init T j (g_z g))%Q) gals in
  let st := asort delta in
  do d5 <- at_fraction st delta (5#100);
  do d99 <- at_fraction st delta (99#100);
  Ok (filter (fun de => (Qlt_bool d5 (fst de) && Qlt_bool (fst de) d99)%bool) (combine delta (map (fun g => g_err g j) gals))).
(** 135-136, 146-147 *)
Definition near_median (T : fits) (nodes med width : list Q) (j : nat) (gals : list sgal) : list sgal :=
  filter (fun g => (Qlt_bool (t_spl T nodes med (g_z g) - 2 * t_spl T nodes width (g_z g)) (g_col g j) &&
                    Qlt_bool (g_col g j) (t_spl T nodes med (g_z g) + 2 * t_spl T nodes width (g_z g)))%bool) gals.
(** 163-171: nsig = 1.5 *)
Definition fit_sample (T : fits) (nodes med width : list Q) (j : nat) (gals : list sgal) : list fitrow :=
  map (fun g => mkFR (g_z g) (g_col g j) (g_merr g j, g_merr g (j + 1)) ((3#2) * t_spl T nodes width (g_z g)))
      (filter (fun g => Qlt_bool (Qabs (g_col g j - t_spl T nodes med (g_z g))) ((3#2) * t_spl T nodes width (g_z g))) gals).
(** the four columns of a color *)
Record colfit := mkCF { cf_med : list Q; cf_width : list Q; cf_mean : list Q; cf_scat : list Q }.
(** 111-188; the width of 146-147 is the one of 130, from before the fit of the median *)
Definition fit_mode (asort : list Q -> list nat) (T : fits) (nodes : list Q) (gals : list sgal) (j : nat) : res colfit :=
  do sample <- trimmed asort T j gals;
  let '(mu, sigma) := t_mix T sample in
  let mvals := map (fun z => (t_init T j z + mu)%Q) nodes in
  let scvals := map (fun _ => sigma) nodes in
  let u := near_median T nodes mvals scvals j gals in
  let med := t_med T nodes (map (fun g => (g_z g, g_col g j)) u) mvals in
  let u := near_median T nodes med scvals j gals in
  let wid := map (fun s => (14826#10000) * s)%Q (t_med T nodes (map (fun g => (g_z g, Qabs (g_col g j - t_spl T nodes med (g_z g)))) u) scvals) in
  let rows := fit_sample T nodes med wid j gals in
  let slope := map (fun _ => 0%Q) med in
  let m1 := t_mean T nodes rows med slope wid in
  let s1 := t_scat T nodes rows m1 slope wid in
  let '(m2, s2) := t_both T nodes rows m1 slope s1 in
  Ok (mkCF med wid m2 s2).
(** 98-188: the tables of all colors, zero where no mode is fitted *)
Fixpoint fit_modes (asort : list Q -> list nat) (T : fits) (nodes : list Q) (gals : list sgal) (modes : list nat) (tab : list colfit) : res (list colfit) :=
  match modes with
  | [] => Ok tab
  | j :: modes' =>
      if Nat.leb (List.length tab) j then Err IndexError else
      do c <- fit_mode asort T nodes gals j;
      fit_modes asort T nodes gals modes' (set_nth tab j c)
  end.
Definition no_fit (nodes : list Q) : colfit := let z := map (fun _ => 0%Q) nodes in mkCF z z z z.
Definition red_model (asort : list Q -> list nat) (T : fits) (nodes : list Q) (gals : list sgal) (ncol : nat) (modes : list nat) : res (list colfit) :=
  fit_modes asort T nodes gals modes (repeat (no_fit nodes) ncol).
(** run_colormem.py:85-89: the red colors at a redshift *)
Definition red_colors (T : fits) (nodes : list Q) (tab : list colfit) (z : Q) : list Q := map (fun c => t_spl T nodes (cf_mean c) z) tab.
