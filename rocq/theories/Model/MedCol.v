(** The medians of the calibration sample: calibration/redsequencecal.py:362-391 (_calc_pivotmags), 393-454 (_calc_medcols), and the name
    of the file of the redshifts, 217-219.  Real arithmetic.  The median fit (MedZFitter, fitters.py:14-69) and the spline are inputs,
    the start values are those of Model/Nodes.  Not modelled: the rounding of the stored columns to four bytes; an empty sample. *)
From Coq Require Import Reals Lra Ascii String.
From Verif.Base Require Import Py.
From Verif.Model Require Import Names Depth ColFit ErrBin.
From Coq Require Import Lia List. Import ListNotations.
Local Open Scope R_scope.

(** ** 388-391; [mstar]: the characteristic magnitude at a redshift *)
Definition min_refmag (mstar : R -> R) (z : R) : R := mstar z - 25/10 * log10 30.
Definition lval_min (lval_reference : R) : R := Rmax (lval_reference - 1/10) (1/1000).
Definition max_refmag (mstar : R -> R) (lval_reference z : R) : R := mstar z - 25/10 * log10 (lval_min lval_reference).

(** ** 409-454 for one color *)
(** a galaxy: redshift, color and its error *)
Record cgal := mkCG { c_z : R; c_col : R; c_err : R }.
(** [l_med z y start lo]: the fit of MedZFitter with the nodes pivotmag_z and the lower bound [lo] (None: none); [l_spl values]: the
    spline through the values at these nodes *)
Record libs := mkL { l_med : list R -> list R -> list R -> option R -> list R; l_spl : list R -> R -> R }.
(** 438: np.arange(0.5, 10.0, 0.1) *)
Definition ratios : list R := map (fun k => 5/10 + INR k * (1/10)) (seq 0 95).
(** 446-447: [sig]: sig_int, [d]: residual, [e]: error *)
Definition pull_of (sig r d e : R) : R := d / sqrt ((r * e) ^ 2 + sig ^ 2).
(** 445-449 *)
Definition sigma_pull (sig : R) (des : list (R * R)) (r : R) : R := madR (map (fun de => pull_of sig r (fst de) (snd de)) des).
(** 451-452 *)
Definition err_ratio (sig : R) (des : list (R * R)) : res R :=
  do i <- argminR (map (fun r => Rabs (sigma_pull sig des r - 1)) ratios);
  match nth_error ratios i with Some r => Ok r | None => Err IndexError end.
Record medcol := mkMC { m_col : list R; m_width : list R; m_ratio : R }.
(** [start], [scstart]: the start values of 415 *)
Definition calc_medcol (L : libs) (fit_err_ratio : bool) (start scstart : list R) (gals : list cgal) : res medcol :=
  let z := map c_z gals in
  let mvals := l_med L z (map c_col gals) start None in                                         (* 418-419 *)
  let med := l_spl L mvals in                                                                   (* 422-423 *)
  let sc := l_med L z (map (fun g => Rabs (c_col g - med (c_z g))) gals) scstart (Some (1/100)) in  (* 424-425 *)
  let width := map (fun s => 14826/10000 * s) sc in                                             (* 428 *)
  if fit_err_ratio then
    match width with
    | [] => Err IndexError                                                                      (* 441 *)
    | sig :: _ =>
      do r <- err_ratio sig (map (fun g => (c_col g - l_spl L mvals (c_z g), c_err g)) gals);     (* 432-452 *)
      Ok (mkMC mvals width r)
    end
  else Ok (mkMC mvals width 1).

(** ** 217-219: os.path.basename, os.path.join with a relative name *)
Local Open Scope list_scope.
Fixpoint until_slash (l : str) : str := match l with [] => [] | c :: t => if Ascii.eqb c "/"%char then [] else c :: until_slash t end.
Definition basename (s : str) : str := rev (until_slash (rev s)).
Definition join (dir name : str) : str :=
  match rev dir with [] => name | c :: _ => if Ascii.eqb c "/"%char then dir ++ name else dir ++ s_ "/" ++ name end.
Definition zred_file (outpath galfile : str) : str := join outpath (basename (rstrip (s_ ".fit") galfile ++ s_ "_zreds.fit")).
