(** Model of the life of a pixelized galaxy catalog: written by GalaxyCatalogMaker (Model/Maker.v), run for redshifts by
    redmapper/zred_runner.py:170-342 ([ZredRunPixels]), read by [GalaxyCatalog.from_galfile] (Model/Galfile.v). *)
From Verif.Base Require Import Py.
From Verif.Model Require Import Maker Galfile.
From Coq Require Import List. Import ListNotations.

(** What a pixel file holds of a galaxy: position and magnitude in the reference band (functions of its opaque columns), and
    the columns themselves.  Simplification: the id is left out (C06 is about ids). *)
Record phot := mkPhot { ph_pos : Z -> Z; ph_mag : Z -> Q }.
Definition row_of (ph : phot) (d : Z) : row := mkRow (ph_pos ph d) (ph_mag ph d) d.

(** The directory as the reader sees it: one entry per row of the master table (galaxy.py:855-861, read at 177), with the pixel
    file named there (303-314).  No redshifts yet. *)
Definition pixel_entry (ph : phot) (s : Maker.st) (pn : nat * nat) : entry :=
  Galfile.mkE (Z.of_nat (fst pn)) (snd pn)
    (map (fun g => row_of ph (gdat g)) (match files s (fst pn) with Some l => l | None => [] end)) None.
Definition pixel_files (ph : phot) (s : Maker.st) : list entry :=
  match Maker.master s with None => [] | Some tab => map (pixel_entry ph s) tab end.

(** zred_runner.py:261-265: one pixel of the table is read with the table's own resolution and no border. *)
Definition pixel_geo (npt : Z) : geo := mkGeo (fun h => h) [] [] (fun x => x) npt.
Definition pixel_args (nt : nat) (h : Z) : args := mkA nt [h] 0%Q false false (0, 0)%Q 0%Q.
(** zred_runner.py:245-291 [_worker]; [calc] is the redshift of one galaxy (C48: rows do not influence each other; the samples
    are left out, see C142).  The file is written under a name made from the pixel number, and returned with the index. *)
Definition worker (calc : row -> res zrow) (npt : Z) (nt : nat) (tab : list entry) (i : nat) : res (nat * list zrow) :=
  match nth_error tab i with
  | None => Err IndexError
  | Some e =>
      do rows <- from_galfile (pixel_geo npt) nt tab (pixel_args nt (ehpix e));
      do z <- mapM (fun o => calc (fst o)) rows;
      Ok (i, z)
  end.
(** zred_runner.py:320-325: the new table starts as a copy of the galaxy table without any file name. *)
Definition clear (e : entry) : entry := Galfile.mkE (ehpix e) (engals e) (erows e) None.
Definition set_z (e : entry) (z : list zrow) : entry := Galfile.mkE (ehpix e) (engals e) (erows e) (Some z).
Fixpoint put_z (tab : list entry) (i : nat) (z : list zrow) : list entry :=
  match tab, i with
  | [], _ => []
  | e :: t, 0 => set_z e z :: t
  | e :: t, S i' => e :: put_z t i' z
  end.
(** zred_runner.py:327-337 *)
Fixpoint fill_table (ps : list (nat * list zrow)) (tab : list entry) : res (list entry) :=
  match ps with
  | [] => Ok tab
  | (i, z) :: t =>
      match nth_error tab i with
      | None => Err IndexError
      | Some e => if Nat.eqb (List.length z) (engals e) then fill_table t (put_z tab i z) else Err ValueError
      end
  end.
(** zred_runner.py:215-243: the pixels of the configured region; the table (written over any existing one, 342). *)
Definition zred_run (calc : row -> res zrow) (g : geo) (npt : Z) (nt : nat) (tab : list entry) (a : args) : res (list entry) :=
  do idx <- get_subpixel_indices g tab a;
  do ps <- mapM (worker calc npt nt tab) idx;
  fill_table ps (map clear tab).
