(** The fit of the redMaGiC cuts and of the afterburner, redmagic/redmagic_calibrate.py:80-108, 128-276, 438-443, 498-533 and
    594-638.  Real arithmetic; the splines (CubicSpline without fixextrap), the two minimizers and the sum over the redshift bins
    (modelled in RedCal) are inputs.  Not modelled: the plots and the logging. *)
From Coq Require Import Reals Lra.
From Verif.Base Require Import Py.
From Verif.Model Require Import BkgGen Depth.
From Coq Require Import Lia List. Import ListNotations.
Local Open Scope R_scope.

(** what the fitter is given of a galaxy, 86-97: raw redshift and error, chi-squared, magnitude, calibration redshift, first
    sample, largest redshift of the volume-limited survey there *)
Record fgal := mkFG { f_z : R; f_e : R; f_chisq : R; f_mag : R; f_zcal : R; f_samp : R; f_zmax : R }.
(** what the fitter changes, 88-89, 91, 96: corrected redshift, its error, its sample, mstar there *)
Record sgal := mkSG { s_z : R; s_e : R; s_samp : R; s_mstar : R }.
(** the libraries: [l_spl nodes values]: CubicSpline; [l_fmin cost start]: scipy.optimize.fmin; [l_med nodes z y start lo hi]: the fit
    of MedZFitter (fitters.py:37-65); [l_bins]: 258-269, the cost of the samples in the redshift bins *)
Record libs := mkL { l_spl : list R -> list R -> R -> R; l_fmin : (list R -> R) -> list R -> list R;
                     l_med : list R -> list R -> list R -> list R -> R -> R -> list R; l_bins : list R -> R }.
(** the rest of the constructor's arguments, 80-108 *)
Record fconf := mkFC { k_nodes : list R; k_corr : list R; k_etamin : R; k_maxchi : R; k_mstar : R -> R; k_train : option (list nat) }.

(** 88-89, 91, 96 (91: mstar_init is zredstr.mstar(zuse), 378 *)
Definition raw (k : fconf) (g : fgal) : sgal := mkSG (f_z g) (f_e g) (f_samp g) (k_mstar k (f_z g)).
(** 157-164, 171 *)
Definition burned (L : libs) (k : fconf) (bias eratio : list R) (g : fgal) : sgal :=
  let zm := f_z g - l_spl L (k_corr k) bias (f_z g) in
  mkSG zm (f_e g * l_spl L (k_corr k) eratio (f_z g)) (f_samp g - l_spl L (k_corr k) bias (f_z g)) (k_mstar k zm).
(** 200, 247 *)
Definition chicut (L : libs) (k : fconf) (cval : list R) (g : fgal) : R := Rmin (Rmax (l_spl L (k_nodes k) cval (f_z g)) (1/10)) (k_maxchi k).
(** 202-209, 251-253 *)
Definition fkept (L : libs) (k : fconf) (cval : list R) (gs : fgal * sgal) : bool :=
  Rltb (f_chisq (fst gs)) (chicut L k cval (fst gs)) &&
  Rltb (f_mag (fst gs)) (s_mstar (snd gs) - 25/10 * log10 (k_etamin k)) &&
  Rltb (s_z (snd gs)) (f_zmax (fst gs)).
(** 230-276 *)
Definition call (L : libs) (k : fconf) (gals : list fgal) (st : list sgal) (pars : list R) : R :=
  match filter (fkept L k pars) (combine gals st) with
  | [] => 100000000000
  | gd => l_bins L (map (fun gs => s_samp (snd gs)) gd) + (if existsb (fun p => Rltb p (1/10)) pars then 10000 else 0)
  end.
(** 128-176; [corr]: (biaspars, eratiopars) *)
Definition fit (L : libs) (k : fconf) (gals : list fgal) (cval : list R) (corr : option (list R * list R)) (afterburner : bool) : res (list sgal * list R) :=
  if afterburner then
    match k_train k, corr with
    | None, _ => Err RuntimeError
    | _, None => Err RuntimeError
    | Some _, Some (b, e) => let st := map (burned L k b e) gals in Ok (st, l_fmin L (call L k gals st) cval)
    end
  else let st := map (raw k) gals in Ok (st, l_fmin L (call L k gals st) cval).
(** 178-228 *)
Definition fit_bias_eratio (L : libs) (k : fconf) (gals : list fgal) (st : list sgal) (cval b0 e0 : list R) : res (list R * list R) :=
  match k_train k with
  | None => Err IndexError
  | Some train =>
    do sel <- np_take (combine gals st) train;
    let gd := map fst (filter (fkept L k cval) sel) in
    let bias := l_med L (k_corr k) (map f_z gd) (map (fun g => f_z g - f_zcal g) gd) b0 (- (1/10)) (1/10) in
    let y := map (fun g => 14826/10000 * Rabs (f_z g - f_zcal g - l_spl L (k_corr k) bias (f_z g)) / f_e g) gd in
    Ok (bias, l_med L (k_corr k) (map f_z gd) y e0 (1/2) (3/2))
  end.

(** 624-628 *)
Fixpoint iterate (L : libs) (k : fconf) (gals : list fgal) (n : nat) (s : list sgal * list R * (list R * list R)) : res (list sgal * list R * (list R * list R)) :=
  match n with
  | O => Ok s
  | S n' =>
    let '(st, cval, (b, e)) := s in
    do be <- fit_bias_eratio L k gals st cval b e;
    do sc <- fit L k gals cval (Some be) true;
    iterate L k gals n' (fst sc, snd sc, be)
  end.
(** 553-563, 594-638; [constchi]: the constant cut, if configured; [start]: the starting values.  What is recorded *)
Record recorded := mkRec { r_cmax : list R; r_bias : list R; r_eratio : list R }.
Definition calibrate (L : libs) (k : fconf) (gals : list fgal) (constchi : option R) (start : list R) (run_ab : bool) : res recorded :=
  let zeros := map (fun _ => 0) (k_corr k) in let ones := map (fun _ => 1) (k_corr k) in
  do s <- match constchi with
          | Some c => Ok (map (raw k) gals, map (fun _ => c) (k_nodes k))
          | None => fit L k gals start None false
          end;
  if run_ab then
    do s5 <- match constchi with
             | Some _ => Ok (s, (zeros, ones))
             | None => iterate L k gals 5 (s, (zeros, ones))
             end;
    let '(st, cval, (b, e)) := s5 in
    do be <- fit_bias_eratio L k gals st cval b e;
    Ok (mkRec cval (fst be) (snd be))
  else Ok (mkRec (snd s) zeros ones).

(** ** 432-443: calibration redshifts from the members of clusters; a member: its galaxy, its cluster, its probability, the redshift
    in the member file *)
Record mem := mkMem { m_id : Z; m_cluster : Z; m_p : R; m_z : R }.
(** 432-433: errors default to 0 *)
Definition mem_err (cat : list (Z * R)) (m : mem) : R := match find (fun c => (fst c =? m_cluster m)%Z) cat with Some c => snd c | None => 0 end.
(** 438-443: match(gals.id, mem.id) gives every member of a galaxy; the last assignment stays *)
Definition zcal_of (cat : list (Z * R)) (pcut : R) (mems : list mem) (id : Z) : R * R :=
  match rev (filter (fun m => (m_id m =? id)%Z) (filter (fun m => Rltb pcut (m_p m)) mems)) with
  | m :: _ => (m_z m, mem_err cat m)
  | [] => (-1, -1)
  end.
