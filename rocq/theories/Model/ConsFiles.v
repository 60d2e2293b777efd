(** The files that the consolidation of a run finds: pipeline/redmapperconsolidatetask.py:77-87, 121-135 (RedmapperConsolidateTask.run, with
    the type "final") and 331-341, 349-364 (RuncatConsolidateTask.run).  Simplified: output directory and outbase hold none of the
    characters * ? [ that are special in a pattern, the directory does not end in a slash, and \d matches the ten ASCII digits only. *)
From Coq Require Import Ascii String ZArith.
From Verif.Base Require Import Py.
From Verif.Model Require Import Names Galfile.
From Coq Require Import List. Import ListNotations.
Local Open Scope list_scope.

(** glob: a character, ?, * *)
Inductive pat := Lit (c : ascii) | One | Any.
Fixpoint glob (p : list pat) (s : str) : bool :=
  match p with
  | [] => match s with [] => true | _ => false end
  | Lit c :: q => match s with x :: t => Ascii.eqb x c && glob q t | [] => false end
  | One :: q => match s with _ :: t => glob q t | [] => false end
  | Any :: q => (fix star (s : str) : bool := glob q s || match s with [] => false | _ :: t => star t end) s
  end.
(** 78, 332: outbase_*_?????_type_catalog.fit *)
Definition cat_pattern (base typ : str) : list pat :=
  map Lit (base ++ s_ "_") ++ Any :: map Lit (s_ "_") ++ repeat One 5 ++ map Lit (s_ "_" ++ typ ++ s_ "_catalog.fit").
(** sorted: by the codes of the characters *)
Fixpoint str_leb (a b : str) : bool :=
  match a, b with
  | [], _ => true
  | _ :: _, [] => false
  | x :: a', y :: b' => (nat_of_ascii x <? nat_of_ascii y) || ((nat_of_ascii x =? nat_of_ascii y) && str_leb a' b')
  end.
Fixpoint insert_str (x : str) (l : list str) : list str :=
  match l with [] => [x] | y :: t => if str_leb x y then x :: l else y :: insert_str x t end.
Fixpoint sort_str (l : list str) : list str := match l with [] => [] | x :: t => insert_str x (sort_str t) end.
(** 78, 332; [names]: of the files in the output directory *)
Definition found (path base typ : str) (names : list str) : list str :=
  sort_str (map (fun n => path ++ s_ "/" ++ n) (filter (glob (cat_pattern base typ)) names)).

(** re.search(r'_(\d+)_(\d\d\d\d\d)_', s): the two groups of the leftmost match *)
Fixpoint span_digits (s : str) : str * str :=
  match s with
  | [] => ([], [])
  | c :: t => if is_digit c then let '(d, r) := span_digits t in (c :: d, r) else ([], s)
  end.
Definition after_bar (s : str) : option (str * str) :=
  match span_digits s with
  | (d0 :: d, c :: r) => if Ascii.eqb c "_"%char then
      match take_digits 5 r with
      | Some e => match skipn 5 r with x :: _ => if Ascii.eqb x "_"%char then Some (d0 :: d, e) else None | [] => None end
      | None => None
      end else None
  | _ => None
  end.
Fixpoint search_tile (s : str) : option (str * str) :=
  match s with
  | [] => None
  | c :: t => match (if Ascii.eqb c "_"%char then after_bar t else None) with Some r => Some r | None => search_tile t end
  end.
(** 131-135, 360-364 *)
Definition pixel_of (f : str) : res (str * Z) :=
  match search_tile f with None => Err RuntimeError | Some (_, e) => Ok (f, parse e) end.
(** 77-87 and 131-135 over the files: the resolution of the run, and every file with its pixel *)
Definition tiles (path base typ : str) (names : list str) : res (Z * list (str * Z)) :=
  match found path base typ names with
  | [] => Err IndexError
  | f :: t => match search_tile f with
              | None => Err RuntimeError
              | Some (d, _) => do fs <- mapM pixel_of (f :: t); Ok (parse d, fs)
              end
  end.
