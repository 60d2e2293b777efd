(** Model of the match of spectra to the galaxies of the redMaGiC calibration: redmapper/redmagic/redmagic_calibrate.py:411-423
    (zspec starts as 0, 363-365). *)
From Coq Require Import Reals Lra.
From Verif.Base Require Import Py.
From Verif.Model Require Import BkgGen Redmagic.
From Coq Require Import List.
Import ListNotations.
Local Open Scope R_scope.

(** numpy's [zs[j] = z] with a valid index; an index past the end changes nothing (the matcher gives none) *)
Fixpoint put (zs : list R) (j : nat) (z : R) : list R :=
  match zs, j with
  | [], _ => []
  | _ :: t, O => z :: t
  | x :: t, S j => x :: put t j z
  end.

(** 415-420: spectra with a small error are each matched to at most one galaxy, the one [near] finds among the positions of the
    galaxies (galaxy.py:441-474, esutil's matcher with maxmatch=1, matches in the order of the spectra); assignments happen in
    that order *)
Definition matched_zspec (near : list (R * R) -> R -> R -> option nat) (maxerr : R) (specs : list spectrum) (gals : list gal) : list R :=
  let use := filter (fun s => Rltb (s_zerr s) maxerr) specs in
  let pos := map (fun g => (g_ra g, g_dec g)) gals in
  fold_left (fun zs s => match near pos (s_ra s) (s_dec s) with Some j => put zs j (s_z s) | None => zs end)
            use (repeat 0 (List.length gals)).
(** 411-423: with mock truth the column is the true redshift *)
Definition cal_zspec (truth : bool) near maxerr specs gals : list R :=
  if truth then map g_ztrue gals else matched_zspec near maxerr specs gals.
