(** Calibration fits: fitters.py:93-468 (RedSequenceFitter), 470-663 (RedSequenceOffDiagonalFitter), 930-1059 (EcgmmFitter). *)
From Coq Require Import QArith Reals.
From Verif.Base Require Import Py.
From Verif.Model Require Import BkgGen.
Local Open Scope nat_scope.

Section RedSequence.
Local Open Scope R_scope.
(** A galaxy of the fit: color, squared magnitude error in the redder band, probability, background density. The squared
    error in the bluer band is kept apart: it is column 0 of the array self._mag_err2s. *)
Record fgal := mkFG { fg_col : R; fg_e1 : R; fg_p : R; fg_bkg : R }.
(** The type of the parameter vectors is left open; the splines evaluated at a galaxy's redshift (with slope and luptitude
    correction), the error ratio and the truncation factor as a function of the width are parameters. *)
Record fsetup (P : Type) := mkFS { fs_scatter : bool; fs_ind0 : bool; fs_ind1 : bool; fs_min : R;
  fs_mean : P -> fgal -> R; fs_scat : P -> fgal -> R; fs_ratio : P -> fgal -> R; fs_phi : fgal -> R -> R; fs_prior : P -> R }.
Arguments fs_scatter {P}. Arguments fs_ind0 {P}. Arguments fs_ind1 {P}. Arguments fs_min {P}. Arguments fs_mean {P}.
Arguments fs_scat {P}. Arguments fs_ratio {P}. Arguments fs_phi {P}. Arguments fs_prior {P}.

Context {P : Type}.
(** 416-423 (and 340-347): the e2 of one galaxy from the current content of column 0 *)
Definition e2_of (S : fsetup P) (p : P) (g : fgal) (x : R) : R :=
  (if fs_ind0 S then (fs_ratio S p g) ^ 2 * x else x) + (if fs_ind1 S then (fs_ratio S p g) ^ 2 * fg_e1 g else fg_e1 g).
Definition e2s (S : fsetup P) (p : P) (gs : list fgal) (col : list R) : list R := map (fun gx => e2_of S p (fst gx) (snd gx)) (combine gs col).
(** 418-423: without an error ratio for the bluer band e2 is a view of column 0, so that += writes into it *)
Definition col_after (S : fsetup P) (p : P) (gs : list fgal) (col : list R) : list R := if fs_ind0 S then col else e2s S p gs col.
(** 424 *)
Definition sig2 (S : fsetup P) (p : P) (g : fgal) (e2 : R) : R := (Rmax (fs_scat S p g) (fs_min S)) ^ 2 + e2.
Definition sig2s (S : fsetup P) (p : P) (gs : list fgal) (es : list R) : list R := map (fun ge => sig2 S p (fst ge) (snd ge)) (combine gs es).
(** 438-461, with probabilities and background; a logarithm that is not finite counts -100 *)
Definition like1 (S : fsetup P) (p : P) (g : fgal) (v : R) : R :=
  let sig := sqrt v in
  let xi := (fg_col g - fs_mean S p g) / sig in
  let gci := (1 / sig) * (1 / sqrt (2 * PI)) * exp (- (1 / 2) * xi ^ 2) / fs_phi S g sig in
  let a := fg_p g * gci + (1 - fg_p g) * fg_bkg g in
  if Rltb 0 a then ln a else -100.
Definition total (S : fsetup P) (p : P) (gs : list fgal) (vs : list R) : R :=
  - (fold_right Rplus 0 (map (fun gv => like1 S p (fst gv) (snd gv)) (combine gs vs))) + (if fs_scatter S then fs_prior S p else 0).
(** 379-468: one evaluation; [gsig] is the width kept from the start of the fit when the scatter is not fitted *)
Definition evaluate (S : fsetup P) (gs : list fgal) (gsig : list R) (col : list R) (p : P) : list R * R :=
  if fs_scatter S then (col_after S p gs col, total S p gs (sig2s S p gs (e2s S p gs col))) else (col, total S p gs gsig).
(** column 0 after a sequence of evaluations *)
Definition evaluations (S : fsetup P) (gs : list fgal) (gsig : list R) (col : list R) (ps : list P) : list R :=
  fold_left (fun c p => fst (evaluate S gs gsig c p)) ps col.
(** 337-348: the start of a fit *)
Definition start_fit (S : fsetup P) (gs : list fgal) (col : list R) (p0 : P) : list R * list R :=
  if fs_scatter S then (col, []) else (col_after S p0 gs col, sig2s S p0 gs (e2s S p0 gs col)).
End RedSequence.
Arguments fsetup P : clear implicits.
Arguments fs_scatter {P}. Arguments fs_ind0 {P}. Arguments fs_ind1 {P}. Arguments fs_min {P}. Arguments fs_mean {P}.
Arguments fs_scat {P}. Arguments fs_ratio {P}. Arguments fs_phi {P}. Arguments fs_prior {P}. Arguments mkFS {P}.

(** 297-328, 366-377: the parameter vector *)
Record pflags := mkPF { pf_mean : bool; pf_slope : bool; pf_scatter : bool; pf_err : bool }.
Record counts := mkPC { n_mean : nat; n_slope : nat; n_scatter : nat }.
Definition mean_count (f : pflags) (c : counts) : nat := if pf_mean f then n_mean c else 0.
Definition slope_index (f : pflags) (c : counts) : nat := mean_count f c.
Definition slope_count (f : pflags) (c : counts) : nat := if pf_slope f then n_slope c else 0.
Definition scatter_index (f : pflags) (c : counts) : nat := slope_index f c + slope_count f c.
Definition pack {A} (f : pflags) (pm ps pc : list A) (e0 e1 : A) : list A :=
  (if pf_mean f then pm else []) ++ (if pf_slope f then ps else []) ++ (if pf_scatter f then pc ++ (if pf_err f then [e0; e1] else []) else []).
(** x[a: b] *)
Definition slice {A} (x : list A) (a b : nat) : list A := firstn (b - a) (skipn a x).
Definition unpack {A} (f : pflags) (c : counts) (x : list A) : list (list A) :=
  (if pf_mean f then [slice x 0 (n_mean c)] else []) ++
  (if pf_slope f then [slice x (slope_index f c) (slope_index f c + n_slope c)] else []) ++
  (if pf_scatter f then [slice x (scatter_index f c) (scatter_index f c + n_scatter c + (if pf_err f then 2 else 0))] else []).
(** bounds: 304-325 *)
Inductive bnd := Free | Scat (i : nat) | ErrInt | ErrSlope.
Definition bounds (f : pflags) (c : counts) : list bnd :=
  (if pf_mean f then repeat Free (n_mean c) else []) ++ (if pf_slope f then repeat Free (n_slope c) else []) ++
  (if pf_scatter f then map Scat (seq 0 (n_scatter c)) ++ (if pf_err f then [ErrInt; ErrSlope] else []) else []).
(** 327-328 *)
Definition fit_pack {A} (f : pflags) (c : counts) (pm ps pc : list A) (e0 e1 : A) : res (list A) :=
  if (mean_count f c + slope_count f c + (if pf_scatter f then n_scatter c else 0) =? 0) then Err ValueError else Ok (pack f pm ps pc e0 e1).

(** RedSequenceOffDiagonalFitter: 550-559, 616-637 for one galaxy. [ej], [ej1]: errors of the bands of the first color, [ek], [ek1] of
    the second one; [adj]: the second color follows the first (k = j + 1). *)
Record cov2 := mkC2 { c00 : Q; c01 : Q; c11 : Q }.
Definition noise (adj : bool) (ej ej1 ek ek1 : Q) : cov2 := mkC2 (ej ^ 2 + ej1 ^ 2) (if adj then - ek ^ 2 else 0) (ek ^ 2 + ek1 ^ 2).
Definition clipr (r : Q) : Q := Qmin2 (9 # 10) (Qmax2 (- (9 # 10)) r).
Definition intr (r s1 s2 : Q) : cov2 := mkC2 (s1 ^ 2) (clipr r * s1 * s2) (s2 ^ 2).
Definition cadd (a b : cov2) : cov2 := mkC2 (c00 a + c00 b) (c01 a + c01 b) (c11 a + c11 b).
Definition det2 (a : cov2) : Q := c00 a * c11 a - c01 a * c01 a.
Definition metric (a : cov2) : cov2 := mkC2 (c11 a / det2 a) (- c01 a / det2 a) (c00 a / det2 a).
Definition expo (a : cov2) (d1 d2 : Q) : Q := - (1 # 2) * (c00 (metric a) * d1 * d1 + (c01 (metric a) + c01 (metric a)) * d1 * d2 + c11 (metric a) * d2 * d2).

(** EcgmmFitter.fit: 985-1022. The optimiser's answer [x] has five entries; None: it raised. Returns the data kept in the
    object afterwards, and weights, means and widths. *)
Definition ecgmm (asort : list Q -> list nat) (minimize : list Q -> option (list Q)) (y : list Q) (offset : Q) : list Q * res (list Q * list Q * list Q) :=
  let y1 := map (fun v => v + offset)%Q y in
  match minimize y1 with
  | None => (y1, Err ValueError)
  | Some [w; m0; m1; s0; s1] =>
      let mu := [m0 - offset; m1 - offset]%Q in
      let st := asort mu in
      (map (fun v => v - offset)%Q y1,
       do a <- np_take [w; 1 - w]%Q st; do b <- np_take mu st; do c <- np_take [s0; s1] st; Ok (a, b, c))
  | Some _ => (y1, Err IndexError)
  end.
