(** The fit of the redshift corrections: fitters.py:672-927 (CorrectionFitter) and calibration/redsequencecal.py:974-1069
    (_calc_corrections).  Real arithmetic (no underflow); the spline and the optimiser are parameters.  A likelihood that is
    not a number (zero variance) is [None]. *)
From Coq Require Import Reals Lra.
From Verif.Base Require Import Py.
From Verif.Model Require Import BkgGen Richness MaskCorr.
Local Open Scope R_scope.

(** one galaxy: redshift on the axis of the fit, offset and its error, membership probability, magnitude from the pivot, weight *)
Record cobs := mkCO { co_z : R; co_dz : R; co_err : R; co_prob : R; co_dmag : R; co_w : R }.
(** the four sets of spline values: offset, slope, error factor, background *)
Record cpars := mkCP { cp_mean : list R; cp_slope : list R; cp_r : list R; cp_bkg : list R }.
Record cnodes := mkCN { nd_mean : list R; nd_slope : list R; nd_r : list R; nd_bkg : list R }.
(** 708-721: the nodes not given are those of the slope, and these the ones of the mean *)
Definition nodes_of (mean : list R) (slope r bkg : option (list R)) : cnodes :=
  let s := match slope with Some x => x | None => mean end in
  mkCN mean s (match r with Some x => x | None => s end) (match bkg with Some x => x | None => s end).

(** 845, 910, 916 *)
Definition normal (var d : R) : option R :=
  if Req_EM_T var 0 then None else Some (1 / sqrt (2 * PI * var) * exp (- d ^ 2 / (2 * var))).
Definition tiny : R := 4 / 10 ^ 44.
Section Fit.
Variable spl : list R -> list R -> R -> R.       (* CubicSpline(nodes, values)(z) *)
Variable nd : cnodes.
(** 887-921 for one galaxy *)
Definition lik (p : cpars) (o : cobs) : R :=
  let gbkg := Rmax (1 / 10 ^ 10) (spl (nd_bkg nd) (cp_bkg p) (co_z o)) in
  let var0 := (spl (nd_r nd) (cp_r p) (co_z o) * co_err o) ^ 2 in
  let mean := spl (nd_mean nd) (cp_mean p) (co_z o) + spl (nd_slope nd) (cp_slope p) (co_z o) * co_dmag o in
  match normal var0 (co_dz o - mean), normal gbkg (co_dz o) with
  | Some g0, Some g1 =>
      let v := co_w o * (co_prob o * g0 + (1 - co_prob o) * g1) in
      if Rleb v 0 then tiny else v
  | _, _ => tiny
  end.
(** 923-927 *)
Definition cost (obs : list cobs) (p : cpars) : R := - lsum (map (fun o => ln (lik p o)) obs).

(** what is fitted *)
Record cflags := mkCF { cf_mean : bool; cf_slope : bool; cf_r : bool; cf_bkg : bool }.
Definition cnt (b : bool) (l : list R) : nat := if b then List.length l else 0.
(** 801-830 *)
Definition slope_at (f : cflags) : nat := cnt (cf_mean f) (nd_mean nd).
Definition r_at (f : cflags) : nat := slope_at f + cnt (cf_slope f) (nd_slope nd).
Definition bkg_at (f : cflags) : nat := r_at f + cnt (cf_r f) (nd_r nd).
Definition ctr (f : cflags) : nat := bkg_at f + cnt (cf_bkg f) (nd_bkg nd).
Definition start_vec (f : cflags) (p : cpars) : list R :=
  ((if cf_mean f then cp_mean p else []) ++ (if cf_slope f then cp_slope p else []) ++
   (if cf_r f then cp_r p else []) ++ (if cf_bkg f then cp_bkg p else []))%list.
(** the bounds: lower and upper one, if any *)
Definition bound : Type := option R * option R.
Definition bounds (f : cflags) : list bound :=
  (repeat (None, None) (cnt (cf_mean f) (nd_mean nd)) ++ repeat (None, None) (cnt (cf_slope f) (nd_slope nd)) ++
   repeat (Some (1/10), Some 2) (cnt (cf_r f) (nd_r nd)) ++ repeat (Some 0, None) (cnt (cf_bkg f) (nd_bkg nd)))%list.
(** 860-868: slices of the parameter vector *)
Definition group (b : bool) (x : list R) (at_ n : nat) (fixed : list R) : list R := if b then slice x at_ (at_ + n) else fixed.
(** 887-913: the values that the cost sees; those that are not fitted are kept from the start (833-845) *)
Definition seen (f : cflags) (fixed : cpars) (x : list R) : cpars :=
  mkCP (group (cf_mean f) x 0 (List.length (nd_mean nd)) (cp_mean fixed)) (group (cf_slope f) x (slope_at f) (List.length (nd_slope nd)) (cp_slope fixed))
       (group (cf_r f) x (r_at f) (List.length (nd_r nd)) (cp_r fixed)) (group (cf_bkg f) x (bkg_at f) (List.length (nd_bkg nd)) (cp_bkg fixed)).
Definition results (f : cflags) (x : list R) : list (list R) :=
  ((if cf_mean f then [slice x 0 (List.length (nd_mean nd))] else []) ++ (if cf_slope f then [slice x (slope_at f) (slope_at f + List.length (nd_slope nd))] else []) ++
   (if cf_r f then [slice x (r_at f) (r_at f + List.length (nd_r nd))] else []) ++ (if cf_bkg f then [slice x (bkg_at f) (bkg_at f + List.length (nd_bkg nd))] else []))%list.
(** scipy.optimize.minimize(f, p0, bounds): as many bounds as parameters are required *)
Variable minimize : (list R -> R) -> list R -> list bound -> list R.
(** 758-870 *)
Definition fit (f : cflags) (p : cpars) (obs : list cobs) : res (list (list R)) :=
  if Nat.eqb (ctr f) 0 then Err ValueError
  else if Nat.eqb (List.length (start_vec f p)) (List.length (bounds f)) then
    Ok (results f (minimize (fun x => cost obs (seen f p x)) (start_vec f p) (bounds f)))
  else Err ValueError.

(** ** redsequencecal.py:1046-1059 *)
Definition one (l : list (list R)) : res (list R) := match l with [a] => Ok a | _ => Err ValueError end.
Definition stages (noslope : bool) (p : cpars) (obs : list cobs) : res cpars :=
  do l <- fit (mkCF true false false false) p obs;
  do c <- one l;
  let p := mkCP c (cp_slope p) (cp_r p) (cp_bkg p) in
  do s <- (if noslope then Ok (cp_slope p) else do l <- fit (mkCF false true false false) p obs; one l);
  let p := mkCP (cp_mean p) s (cp_r p) (cp_bkg p) in
  do l <- fit (mkCF false false true false) p obs;
  do r <- one l;
  let p := mkCP (cp_mean p) (cp_slope p) r (cp_bkg p) in
  do l <- fit (mkCF false false false true) p obs;
  do b <- one l;
  let p := mkCP (cp_mean p) (cp_slope p) (cp_r p) b in
  if noslope then
    do l <- fit (mkCF true false true true) p obs;
    match l with [c; r; b] => Ok (mkCP c (cp_slope p) r b) | _ => Err ValueError end
  else
    do l <- fit (mkCF true true true true) p obs;
    match l with [c; s; r; b] => Ok (mkCP c s r b) | _ => Err ValueError end.
End Fit.
Arguments mkCF : clear implicits.

(** ** redsequencecal.py:981-991: a galaxy with its likelihood; [st]: argsort of the likelihoods; int(0.05 * n) *)
Record rgal := mkRG { rg_lkhd : R; rg_z : R; rg_zred : R; rg_zerr : R }.
Definition threshold (st : list nat) (gs : list rgal) : res R :=
  match nth_error st (Nat.div (5 * List.length gs) 100) with
  | Some i => match nth_error gs i with Some g => Ok (rg_lkhd g) | None => Err IndexError end
  | None => Err IndexError
  end.
Definition used (t : R) (g : rgal) : bool := Rltb t (rg_lkhd g) && Rltb (Rabs (rg_z g - rg_zred g)) (2 * rg_zerr g).
Definition fit_weight (t : R) (g : rgal) : R := 1 / (exp ((t - rg_lkhd g) / (2/10)) + 1).
(** the galaxies of the fit and their weights *)
Definition sample (st : list nat) (gs : list rgal) : res (list (rgal * R)) :=
  do t <- threshold st gs;
  Ok (map (fun g => (g, fit_weight t g)) (filter (used t) gs)).
