(** Model of the redMaGiC selection: redmapper/redmagic/redmagic_selector.py:93-244 and
    redmapper/redmagic/redmagictask.py:39-115 (without plots and randoms). *)
From Coq Require Import String Reals Lra.
From Verif.Base Require Import Py.
From Verif.Model Require Import BkgGen Depth.
From Verif.Model Require Consolidate Galfile.
Local Open Scope R_scope.

(** a galaxy; [g_pay] is the rest of its row (id, magnitudes and errors) *)
Record gal := { g_pay : Z; g_ra : R; g_dec : R; g_refmag : R; g_zunc : R; g_zunc_e : R; g_chisq : R;
                g_samp : list R; g_ztrue : R; g_zspec : R }.
(** one mode of the calibration file; the splines through its nodes are functions *)
Record mode := { m_z0 : R; m_z1 : R; m_zcush : R; m_buf : R; m_lcush : R; m_maxchi : R; m_etamin : R;
                 m_cmax : R -> R; m_run : bool; m_apply : bool; m_bias : R -> R; m_eratio : R -> R;
                 m_vlim : R -> R -> R }.
(** where spectroscopic redshifts come from: truth column, zspec column, or a match to a spectroscopic
    catalog of (redshift, error), [near] giving the row of the nearest spectrum within 3 arcseconds
    among those it is given (esutil's match_many, maxmatch=1) *)
Record spectrum := { s_ra : R; s_dec : R; s_z : R; s_zerr : R }.
Inductive zsource := Truth | Column | Match (specs : list spectrum) (near : list spectrum -> R -> R -> option nat).

(** an output row *)
Record redgal := { r_pay : Z; r_ra : R; r_dec : R; r_refmag : R; r_chisq : R; r_lum : R; r_z : R; r_ze : R;
                   r_samp : list R; r_zspec : R }.

(** volumelimit.py:265-270: positions beyond the poles have no limit; negative (UNSEEN) becomes 0 *)
Definition zmax_at (m : mode) (ra dec : R) : R :=
  Rmax 0 (if Rltb 90 (Rabs dec) then -1 else m_vlim m ra dec).
(** redmagic_selector.py:131 *)
Definition min_lstar (m : mode) : R := Rmax (1/10) (m_etamin m - m_lcush m).
(** redmagic_selector.py:133-136 *)
Definition red_poss (mstar : R -> R) (m : mode) (g : gal) : bool :=
  Rltb (m_z0 m - m_zcush m - m_buf m) (g_zunc g) && Rltb (g_zunc g) (m_z1 m + m_zcush m + m_buf m) &&
  Rltb (g_chisq g) (m_maxchi m) && Rltb (g_refmag g) (mstar (g_zunc g) - 25/10 * log10 (min_lstar m)).
(** redmagic_selector.py:150-151 *)
Definition chi2max (m : mode) (g : gal) : R := Rmin (Rmax (m_cmax m (g_zunc g)) (1/10)) (m_maxchi m).
(** redmagic_selector.py:153-164 *)
Definition zredmagic (m : mode) (g : gal) : R := if m_run m then g_zunc g - m_bias m (g_zunc g) else g_zunc g.
Definition zredmagic_e (m : mode) (g : gal) : R := if m_run m then g_zunc_e g * m_eratio m (g_zunc g) else g_zunc_e g.
Definition zredmagic_samp (m : mode) (g : gal) : list R :=
  if m_run m && m_apply m then map (fun s => s - m_bias m (g_zunc g)) (g_samp g) else g_samp g.

(** redmagic_selector.py:211-236 *)
Definition zspec_cols (src : zsource) (gals : list gal) (gd : list nat) (ra dec : list R) : res (list R) :=
  match src with
  | Truth => np_take (map g_ztrue gals) gd
  | Column => np_take (map g_zspec gals) gd
  | Match specs near =>
      let use := filter (fun s => Rltb (s_zerr s) (1/1000)) specs in
      Galfile.mapM (fun p => match near use (fst p) (snd p) with
                     | None => Ok (-1)
                     | Some i => match nth_error use i with Some s => Ok (s_z s) | None => Err IndexError end
                     end) (combine ra dec)
  end.

(** zip of the output columns *)
Fixpoint zip_out (pay : list Z) (ra dec refmag chisq lum z ze : list R) (samp : list (list R)) (zs : list R) : list redgal :=
  match pay, ra, dec, refmag, chisq, lum, z, ze, samp, zs with
  | p :: pay, a :: ra, d :: dec, r :: refmag, c :: chisq, l :: lum, zz :: z, e :: ze, s :: samp, q :: zs =>
      {| r_pay := p; r_ra := a; r_dec := d; r_refmag := r; r_chisq := c; r_lum := l; r_z := zz; r_ze := e; r_samp := s; r_zspec := q |}
      :: zip_out pay ra dec refmag chisq lum z ze samp zs
  | _, _, _, _, _, _, _, _, _, _ => []
  end.
(** redmagic_selector.py:116-244, with the indices returned as well; [mstar]: the redshift-dependent
    characteristic magnitude *)
Definition select_mode (mstar : R -> R) (src : zsource) (m : mode) (gals : list gal) : res (list redgal * list nat) :=
  let poss := map (red_poss mstar m) gals in
  let zr := map (zredmagic m) gals in
  let ms := map mstar zr in
  let chi_ok := map (fun g => Rltb (g_chisq g) (chi2max m g)) gals in
  let lum_ok := map (fun p => Rltb (fst p) (snd p - 25/10 * log10 (m_etamin m))) (combine (map g_refmag gals) ms) in
  let vol_ok := map (fun p => Rltb (fst p) (snd p)) (combine zr (map (fun g => zmax_at m (g_ra g) (g_dec g)) gals)) in
  do m1 <- Consolidate.np_and chi_ok lum_ok;
  do m2 <- Consolidate.np_and m1 vol_ok;
  do mask <- Consolidate.np_and m2 poss;
  let gd := np_where (fun b => b) mask in
  match gd with
  | [] => Ok ([], [])
  | _ =>
    do pay <- np_take (map g_pay gals) gd;
    do ra <- np_take (map g_ra gals) gd;
    do dec <- np_take (map g_dec gals) gd;
    do refmag <- np_take (map g_refmag gals) gd;
    do z <- np_take zr gd;
    do ze <- np_take (map (zredmagic_e m) gals) gd;
    do samp <- np_take (map (zredmagic_samp m) gals) gd;
    do chisq <- np_take (map g_chisq gals) gd;
    do msg <- np_take ms gd;
    let lum := map (fun p => pow10 ((fst p - snd p) / (25/10))) (combine msg refmag) in
    do zs <- zspec_cols src gals gd ra dec;
    Ok (zip_out pay ra dec refmag chisq lum z ze samp zs, gd)
  end.
(** redmagic_selector.py:113-116: modes by name *)
Definition select_redmagic (mstar : R -> R) (src : zsource) (modes : list (string * mode)) (name : string) (gals : list gal) : res (list redgal * list nat) :=
  match find (fun nm => String.eqb (fst nm) name) modes with
  | None => Err RuntimeError
  | Some nm => select_mode mstar src (snd nm) gals
  end.

(** ** the task: one output file per mode, spooled pixel by pixel (redmagictask.py:77-115).  Files by
    mode name; [disk]: what is on disk, None = no such file. *)
Definition disk := string -> option (list redgal).
Definition dset (d : disk) (f : string) (v : list redgal) : disk := fun x => if String.eqb x f then Some v else d x.
Definition spool (mstar : R -> R) (src : zsource) (modes : list (string * mode)) (gals : list gal)
    (st : res (disk * list string)) (name : string) : res (disk * list string) :=
  do ds <- st;
  do o <- select_redmagic mstar src modes name gals;
  let '(d, started) := ds in
  if existsb (String.eqb name) started
  then Ok (dset d name ((match d name with Some old => old | None => [] end) ++ fst o), started)
  else Ok (dset d name (fst o), name :: started).
Definition run_redmagic (mstar : R -> R) (src : zsource) (modes : list (string * mode)) (names : list string) (clobber : bool)
    (pixels : list (list gal)) (d : disk) : res disk :=
  if existsb (fun f => match d f with Some _ => negb clobber | None => false end) names then Err RuntimeError
  else
    do ds <- fold_left (fun st gals => fold_left (spool mstar src modes gals) names st) pixels (Ok (d, []));
    Ok (fst ds).
