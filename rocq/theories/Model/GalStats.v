(** Model of redmapper/configuration.py:661-783 (Configuration._galfile_stats): what a galaxy file says about itself.  Names are in lower
    case: FITS keywords are in upper case and each band is lowered (716); columns are read lowered (728).  *)
From Coq Require Import String Ascii ZArith QArith.
From Verif.Base Require Import Py.
From Coq Require Import List. Import ListNotations.
Local Open Scope string_scope.

(** re.search for any text before _ind (711, 758), which is greedy: what is before the last occurrence *)
Fixpoint before_last (pat s : string) : option string :=
  match s with
  | EmptyString => if prefix pat "" then Some "" else None
  | String c t => match before_last pat t with
                  | Some p => Some (String c p)
                  | None => if prefix pat s then Some "" else None
                  end
  end.
(** 711-716, 758-763; None: no match, or the reference band *)
Definition band_of (name : string) : option string :=
  match before_last "_ind" name with
  | None => None
  | Some b => if String.eqb b "ref" then None else Some b
  end.
(** l[v] = x for a python list *)
Definition py_set {A} (l : list A) (v : Z) (x : A) : res (list A) :=
  let n := Z.of_nat (length l) in
  let k := if (v <? 0)%Z then (v + n)%Z else v in
  if (0 <=? k)%Z && (k <? n)%Z then Ok (firstn (Z.to_nat k) l ++ x :: skipn (S (Z.to_nat k)) l)%list else Err IndexError.
(** 707-717, 754-764 *)
Fixpoint fill (entries : list (string * Z)) (bands : list (option string)) : res (list (option string)) :=
  match entries with
  | [] => Ok bands
  | (name, v) :: t =>
      match band_of name with
      | None => fill t bands
      | Some b => do bands' <- py_set bands v (Some b); fill t bands'
      end
  end.
(** 779-781: unless all are known the configuration's are used *)
Fixpoint all_known (l : list (option string)) : option (list string) :=
  match l with
  | [] => Some []
  | None :: _ => None
  | Some b :: t => match all_known t with Some r => Some (b :: r) | None => None end
  end.
(** 690-697, 735-742 *)
Definition survey_mode (mode : string) : res Z :=
  if String.eqb mode "SDSS" then Ok 0%Z else if String.eqb mode "DES" then Ok 1%Z else if String.eqb mode "LSST" then Ok 2%Z else Err ValueError.
(** the file: FITS flag, pixels flag, mode, number of magnitudes, all names with values (only those that are integers) *)
Record gfile := mkGF { gf_fits : bool; gf_pixels : bool; gf_mode : string; gf_nmag : nat; gf_entries : list (string * Z) }.
Record gstats := mkGS { gs_pixelized : bool; gs_mode : Z; gs_nmag : nat; gs_ref : option Z; gs_bands : option (list string) }.
Fixpoint entry (entries : list (string * Z)) (name : string) : option Z :=
  match entries with [] => None | (n, v) :: t => if String.eqb n name then Some v else entry t name end.
(** 676-783; a header without the reference band gives None (704), a table is an error (752) *)
Definition galfile_stats (refmag : string) (f : gfile) : res gstats :=
  if negb (gf_fits f) then Err ValueError
  else
    do m <- survey_mode (gf_mode f);
    let ref := entry (gf_entries f) (refmag ++ "_ind") in
    if gf_pixels f && match ref with None => true | Some _ => false end then Err ValueError
    else
      do bands <- fill (gf_entries f) (repeat None (gf_nmag f));
      Ok (mkGS (gf_pixels f) m (gf_nmag f) ref (all_known bands)).
