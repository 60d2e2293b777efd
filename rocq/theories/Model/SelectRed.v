(** Model of redmapper/calibration/selectspecred.py:51-216 (the red galaxies with spectra) and configuration.py:831-837 (the redshift
    range of the calibration).  Real arithmetic.  The fits are parameters: the mean colour and scatter of the red sequence in each
    colour as functions of redshift; so is the positional match, pairs of (spectrum, galaxy). *)
From Coq Require Import Reals.
From Verif.Base Require Import Py.
From Verif.Model Require Import BkgGen.
From Coq Require Import List. Import ListNotations.
Local Open Scope R_scope.

(** configuration.py:834-837 *)
Definition zrange_cushioned (zlo zhi cushion : R) : R * R := (Rmax (zlo - cushion) (5/100), zhi + cushion).

(** a galaxy: reference magnitude, colours, their errors; a spectrum: redshift and its error *)
Record rgal := mkRG { rg_refmag : R; rg_col : nat -> R; rg_err : nat -> R }.
Record spectrum := mkSp { sp_z : R; sp_err : R }.
(** a row of the table: the galaxy's number, the galaxy and its redshift *)
Record row := mkRow { r_gal : nat; r_g : rgal; r_z : R }.
(** selectspecred.py:68-70 *)
Definition good_spectra (maxerr : R) (spec : list spectrum) : list spectrum := filter (fun s => Rltb (sp_err s) maxerr) spec.
(** selectspecred.py:73-78 *)
Fixpoint matched (gals : list rgal) (spec : list spectrum) (m : list (nat * nat)) : res (list row) :=
  match m with
  | [] => Ok []
  | (i0, i1) :: t =>
      match nth_error gals i1, nth_error spec i0 with
      | Some g, Some s => do r <- matched gals spec t; Ok (mkRow i1 g (sp_z s) :: r)
      | _, _ => Err IndexError
      end
  end.
(** selectspecred.py:85-87 *)
Definition in_range (zr : R * R) (limmag : R) (r : row) : bool :=
  Rltb (fst zr) (r_z r) && Rltb (r_z r) (snd zr) && Rltb (rg_refmag (r_g r)) limmag.
(** selectspecred.py:192-194 *)
Definition zbounds (zr : R * R) (zb : list R) : list R := (fst zr - 11/1000) :: zb ++ [snd zr + 11/1000].
(** selectspecred.py:199-211 for one galaxy and the m-th mode, of colour j *)
Definition red_in (mn sc : nat -> R -> R) (nsig : R) (j : nat) (r : row) : bool :=
  Rltb (Rabs (rg_col (r_g r) j - mn j (r_z r))) (nsig * sqrt (rg_err (r_g r) j * rg_err (r_g r) j + sc j (r_z r) * sc j (r_z r))).
Fixpoint marks (mn sc : nat -> R -> R) (nsig : R) (modes : list nat) (zb : list R) (rows : list row) (mark : list bool) : res (list bool) :=
  match modes with
  | [] => Ok mark
  | j :: modes' =>
      match zb with
      | z0 :: ((z1 :: _) as zb') =>
          marks mn sc nsig modes' zb' rows
            (map (fun bm => snd bm || (Rltb z0 (r_z (fst bm)) && Rltb (r_z (fst bm)) z1 && red_in mn sc nsig j (fst bm))) (combine rows mark))
      | _ => Err IndexError                      (* zbounds[m + 1] *)
      end
  end.
(** selectspecred.py:60-216.  Without galaxies the percentiles of 116 do not exist. *)
Definition select_red (zr : R * R) (maxerr limmag nsig : R) (modes : list nat) (zb : list R) (match_of : list spectrum -> list (nat * nat))
    (mn sc : nat -> R -> R) (gals : list rgal) (spec : list spectrum) : res (list row) :=
  let good := good_spectra maxerr spec in
  do all <- matched gals good (match_of good);
  let rows := filter (in_range zr limmag) all in
  match rows, modes with
  | [], _ :: _ => Err IndexError
  | _, _ =>
      do mk <- marks mn sc nsig modes (zbounds zr zb) rows (map (fun _ => false) rows);
      Ok (map fst (filter snd (combine rows mk)))
  end.
