(** Consolidation of catalogs run on input clusters (runcat, zmask, zscan), pipeline/redmapperconsolidatetask.py:317-429
    (RuncatConsolidateTask.run).  Positions, payloads and redshifts are opaque; what the regular expression finds in a file name, the
    pixel of a position and the nearest spectrum (or galaxy with a true redshift) are inputs.  Not modelled: reading and writing of
    FITS files beyond their rows. *)
From Coq Require Import String ZArith.
From Verif.Base Require Import Py.
From Coq Require Import Lia List. Import ListNotations.
Local Open Scope Z_scope.

(** a cluster and a member: identifier of the cluster, position, spectroscopic redshift, the rest *)
Record row := mkRow { r_id : Z; r_pos : Z; r_spec : Z; r_pay : Z }.
(** a pair of files; [f_name]: what 337/360 finds in the name: nside and pixel *)
Record cfile := mkFile { f_name : option (Z * Z); f_cat : list row; f_mem : list row }.
Definition with_spec (near : Z -> option Z) (r : row) : row :=
  mkRow (r_id r) (r_pos r) (match near (r_pos r) with Some z => z | None => -1 end) (r_pay r).
(** 366-390; [near hpix]: within 3 arcseconds among the spectra, or within 1 among the galaxies of the pixel *)
Definition spec_of (match_spec : bool) (near : Z -> Z -> option Z) (hpix : Z) (l : list row) : list row :=
  if match_spec then map (with_spec (near hpix)) l else l.
(** the files made: the catalog, and the members if asked for *)
Definition outfiles := option (list row * option (list row)).
(** 349-418 for one file *)
Definition one (pix : Z -> Z -> Z) (match_spec members : bool) (near : Z -> Z -> option Z) (nside : Z) (o : res outfiles) (f : cfile) : res outfiles :=
  do out <- o;
  match f_name f with
  | None => Err RuntimeError
  | Some (_, hpix) =>
    let cat := filter (fun r => pix nside (r_pos r) =? hpix) (spec_of match_spec near hpix (f_cat f)) in
    let mem := spec_of match_spec near hpix (f_mem f) in
    match cat with
    | [] => Ok out
    | _ =>
      match out with
      | None => Ok (Some (cat, if members then Some mem else None))
      | Some (c, m) => Ok (Some ((c ++ cat)%list, match m with Some l => Some (l ++ mem)%list | None => None end))
      end
    end
  end.
(** 331-418: what is on disk before the plots *)
Definition written (pix : Z -> Z -> Z) (match_spec members : bool) (near : Z -> Z -> option Z) (files : list cfile) : res outfiles :=
  match files with
  | [] => Err IndexError                                                     (* 337: catfiles[0] *)
  | f0 :: _ =>
    match f_name f0 with
    | None => Err RuntimeError
    | Some (nside, _) => fold_left (one pix match_spec members near nside) files (Ok None)
    end
  end.
(** 317-429: the outcome of the call *)
Definition run (pix : Z -> Z -> Z) (do_plots match_spec members : bool) (near : Z -> Z -> option Z) (files : list cfile) : res unit :=
  do out <- written pix match_spec members near files;
  if do_plots then
    match out with
    | None => Err UnboundLocalError                                          (* 421: cat_fname *)
    | Some _ => Err NameError                                                (* 422: cat_name *)
    end
  else Ok tt.
