(** Where random points come from and where they are written: randoms.py:24-56 (GenerateRandoms), 86-91, 152-223 (RandomCatalog,
    RandomCatalogMaker), 230-263 and 281-283 (RandomWeigher), galaxy.py:619-699, 709-731 (GalaxyCatalogMaker),
    redmagic/redmagic_randoms.py:17-47 (RedmagicGenerateRandoms). *)
From Coq Require Import Ascii String QArith Qround.
From Verif.Base Require Import Py.
From Coq Require Import List. Import ListNotations.
Local Open Scope string_scope.

(** ** randoms.py:87: re.search of a group of any characters, then _master_table.fit, at the end of the name, for names without line breaks: the group.
    The dot before "fit" is any character. *)
Fixpoint strip_prefix (p s : string) : option string :=
  match p, s with
  | EmptyString, _ => Some s
  | String a p', String b s' => if Ascii.eqb a b then strip_prefix p' s' else None
  | String _ _, EmptyString => None
  end.
Definition is_tail (s : string) : bool :=
  match strip_prefix "_master_table" s with Some (String _ r) => String.eqb r "fit" | _ => false end.
Fixpoint re_master (s : string) : option string :=
  if is_tail s then Some "" else match s with EmptyString => None | String c r => option_map (String c) (re_master r) end.

(** ** the dictionary of information: randoms.py:188-199, galaxy.py:627-632 *)
Inductive val := VInt (z : Z) | VFloat (q : Q) | VStr (s : string) | VOther (z : Z).
Definition dict := list (string * val).
Fixpoint look (k : string) (d : dict) : option val :=
  match d with [] => None | (k', v) :: t => if String.eqb k k' then Some v else look k t end.
Definition defaulted (d : dict) (kv : string * val) : dict :=
  match look (fst kv) d with Some _ => d | None => (d ++ [kv])%list end.
Definition rand_defaults : dict :=
  [("LIM_REF", VFloat 0); ("REF_IND", VInt 0); ("AREA", VFloat 0); ("NMAG", VInt 0); ("MODE", VStr "NONE"); ("ZP", VFloat 0)].
Definition fill (d : dict) : dict := fold_left defaulted rand_defaults d.
Definition required : list string := ["LIM_REF"; "REF_IND"; "AREA"; "NMAG"; "MODE"; "ZP"].

(** ** galaxy.py:579-697: the maker.  [fs] : which files exist.  (Creating the directory and reading a mask are left out.) *)
Record maker := mkMaker { k_base : string; k_file : string; k_info : dict; k_final : bool }.
Fixpoint has_slash (s : string) : bool := match s with EmptyString => false | String c r => orb (Ascii.eqb c "/") (has_slash r) end.
Definition master (base : string) : string := base ++ "_master_table.fit".
Definition gal_maker (fs : string -> bool) (base : string) (d : dict) : res maker :=
  if negb (forallb (fun k => match look k d with Some _ => true | None => false end) required) then Err KeyError
  else if negb (has_slash (master base)) then Err RuntimeError       (* 665: os.path.basename(f) == f *)
  else if fs (master base) then Err RuntimeError                     (* 683 *)
  else Ok (mkMaker base (master base) d false).
(** randoms.py:184-201; the second component: the caller's dictionary afterwards (it is filled in place) *)
Definition rand_maker (fs : string -> bool) (base : string) (d : dict) : res maker * dict := (gal_maker fs base (fill d), fill d).

(** randoms.py:203-223, galaxy.py:726-731; the check of the fields always passes.  randoms.py does not import os. *)
Definition append_randoms (fs : string -> bool) (m : maker) : res unit :=
  if k_final m then Err RuntimeError else if fs (k_file m) then Err RuntimeError else Ok tt.
Definition split_randoms (m : maker) : res unit := if k_final m then Err RuntimeError else Err NameError.
(** galaxy.py:709-714 *)
Definition split_galaxies (fs : string -> bool) (m : maker) : res unit :=
  if k_final m then Err RuntimeError else if fs (k_file m) then Err RuntimeError else append_randoms fs m.

(** ** randoms.py:40-41, 86-91: from the configured name to the file which will be written *)
Definition gen_file (fs : string -> bool) (randfile : option string) : res string :=
  match randfile with
  | None => Err RuntimeError
  | Some f => match re_master f with
              | None => Err RuntimeError
              | Some base => do m <- fst (rand_maker fs base []); Ok (k_file m)
              end
  end.

(** ** randoms.py:152-177: reading: only from_randfile *)
Inductive reader := FromRandfile | FromGalfile | Galcol | GalcolErr | AddZredFields.
Definition rand_read (r : reader) : res unit := match r with FromRandfile => Ok tt | _ => Err NotImplementedError end.

(** ** the sources: randoms.py:43-56, 250-263.  [mask] : reading the volume limit for a limiting luminosity, [cat] : the catalogue of the
    configuration *)
Record sources (M C : Type) := mkSrc { s_lstar : Q; s_mask : M; s_cat : C }.
Arguments mkSrc {M C}. Arguments s_lstar {M C}. Arguments s_mask {M C}. Arguments s_cat {M C}.
Definition get_sources {M C} (mask : Q -> res M) (cat : res C) (conf_lstar : Q) (vlim_mask : option M) (vlim_lstar : option Q) (given : option C)
    : res (sources M C) :=
  let ls := match vlim_lstar with Some q => q | None => conf_lstar end in
  do m <- match vlim_mask with Some m => Ok m | None => mask ls end;
  do c <- match given with Some c => Ok c | None => cat end;
  Ok (mkSrc ls m c).
(** randoms.py:283: the number in the name of the weights, 'vl%02d' % int(vlim_lstar * 10) *)
Definition name_number {M C} (s : sources M C) : Z :=
  let x := (s_lstar s * 10)%Q in if Qle_bool 0 x then Qfloor x else Qceiling x.

(** ** redmagic_randoms.py:32-47: the two arguments: an object of the right class, a string, or anything else *)
Inductive given (A : Type) := Obj (a : A) | Str (s : string) | Else.
Arguments Obj {A}. Arguments Str {A}. Arguments Else {A}.
Definition redmagic_sources {M C} (m : given M) (c : given C) : res (M * C) :=
  do m' <- match m with Obj x => Ok x | Str _ => Err AttributeError | Else => Err RuntimeError end;     (* self.vlim_mask_or_file *)
  do c' <- match c with Obj x => Ok x | Str _ => Err NameError | Else => Err RuntimeError end;          (* redmagic_file *)
  Ok (m', c').
