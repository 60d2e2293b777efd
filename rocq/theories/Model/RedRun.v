(** The start and the end of the redMaGiC calibration and the check of files before a run: redmagic/redmagic_calibrate.py:311-349,
    475-478, 697-715 (RedmagicCalibrator.run), redmagic/redmagic_selector.py:60-86, redmagic/redmagictask.py:20-37,
    configuration.py:880-931 (check_files). *)
From Coq Require Import ZArith String.
From Verif.Base Require Import Py.
From Coq Require Import List. Import ListNotations.

(** ** paths: absolute or not, and their components; os.path.join; the file a path names, for the working directory [cwd] *)
Record path := mkPath { p_abs : bool; p_comps : list string }.
Definition pjoin (a b : path) : path := if p_abs b then b else mkPath (p_abs a) (p_comps a ++ p_comps b).
Definition dot (s : string) : bool := orb (String.eqb s ".") (String.eqb s "").
Definition place (cwd : list string) (p : path) : list string :=
  filter (fun s => negb (dot s)) (if p_abs p then p_comps p else cwd ++ p_comps p).
Definition disk (A : Type) := list string -> option A.
Definition same_place (a b : list string) : bool := if list_eq_dec string_dec a b then true else false.
Definition put {A} (d : disk A) (at_ : list string) (x : A) : disk A := fun q => if same_place at_ q then Some x else d q.

(** ** redmagic_calibrate.py:311-320: what is needed; [None]: not configured *)
Record needs := mkNeeds { n_gals : bool (* galaxies given by the caller *); n_pixelized : bool; n_zred : option bool; n_cat : option bool; n_depth : option bool; n_mask : option bool }.
Definition there (f : option bool) : bool := match f with Some b => b | None => false end.
Definition check_needs (n : needs) : res unit :=
  if n_gals n then Ok tt
  else if negb (n_pixelized n) then Err RuntimeError
  else if negb (there (n_zred n)) then Err RuntimeError
  else if negb (there (n_cat n)) then Err RuntimeError else Ok tt.
(** 330-349: the volume-limit mask of a mode; [FromDepth f], [FromGeometry f]: with the file [f] *)
Inductive vmask := FromDepth (f : path) | FromGeometry (f : path) | Fixed.
Definition mode_mask (n : needs) (vlimfile : path) : vmask :=
  if there (n_depth n) then FromDepth vlimfile else if there (n_mask n) then FromGeometry vlimfile else Fixed.
(** 476-478: the name that is recorded; [None] is the empty one *)
Definition recorded_mask (m : vmask) : option path := match m with FromDepth f | FromGeometry f => Some f | Fixed => None end.
(** redmagic_selector.py:39, 69-86: the mask of a later run; os.path.dirname and basename *)
Definition dirp (p : path) : path := mkPath (p_abs p) (removelast (p_comps p)).
Definition basep (p : path) : path := mkPath false (match rev (p_comps p) with [] => [] | x :: _ => [x] end).
Definition selector_mask (isfile : path -> bool) (redmagicfile : path) (rec : option path) : res (option path) :=
  match rec with
  | None => Ok None
  | Some f => let g := pjoin (dirp redmagicfile) (basep f) in if isfile g then Ok (Some g) else Err RuntimeError
  end.

(** ** 697-715: the configuration of the run *)
Record rconf := mkRConf { rc_hpix : list Z; rc_nside : Z; rc_area : option Z; rc_rest : Z }.
(** 707-709 *)
Definition full_sky (c : rconf) : rconf := mkRConf [] 0 None (rc_rest c).
(** 704, 710: written; 714: the run is started with its name *)
Definition hand_over (cwd : list string) (d : disk rconf) (outpath runfile : path) (c : rconf) : disk rconf * res rconf :=
  let d' := put d (place cwd (pjoin outpath runfile)) (full_sky c) in
  (d', match d' (place cwd runfile) with Some c' => Ok c' | None => Err OSError end).

(** ** configuration.py:880-931; a file: not configured, or whether it exists *)
Inductive file := Unset | Named (exists_ : bool).
(** os.path.isfile(None) raises TypeError *)
Definition need_file (check : bool) (f : file) : res unit :=
  if check then match f with Unset => Err TypeError | Named true => Ok tt | Named false => Err ValueError end else Ok tt.
(** 908-913: fitsio.FITS on a missing file raises OSError; on None TypeError *)
Definition need_parts (check : bool) (f : file) (exts : list string) : res unit :=
  if check then
    match f with
    | Unset => Err TypeError
    | Named false => Err OSError
    | Named true => if existsb (String.eqb "CHISQBKG") exts then (if existsb (String.eqb "ZREDBKG") exts then Ok tt else Err ValueError) else Err ValueError
    end
  else Ok tt.
Record files := mkFiles { f_zred : file; f_bkg : file; f_par : file; f_zlambda : file; f_rand : file; f_exts : list string }.
Record checks := mkChecks { k_zred : bool; k_bkg : bool; k_parts : bool; k_par : bool; k_zlambda : bool; k_rand : bool }.
Definition check_files (k : checks) (f : files) : res unit :=
  do _ <- need_file (k_zred k) (f_zred f);
  do _ <- need_file (k_bkg k) (f_bkg f);
  do _ <- need_parts (k_parts k) (f_bkg f) (f_exts f);
  do _ <- need_file (k_par k) (f_par f);
  do _ <- need_file (k_zlambda k) (f_zlambda f);
  need_file (k_rand k) (f_rand f).
(** pipeline/redmappertask.py:67, 291: the checks of the first pass and of a scan; 160: of the run on given clusters *)
Definition run_checks : checks := mkChecks true true true true true false.
Definition runcat_checks : checks := mkChecks false true false true true false.
