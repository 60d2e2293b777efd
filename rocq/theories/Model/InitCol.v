(** The initial colours of red galaxies: utilities.py:233-324 (RedGalInitialColors).  The template file is its BANDS entry, its
    redshifts and its table of colours, one row per redshift. *)
From Coq Require Import QArith Ascii String.
From Verif.Base Require Import Py.
From Verif.Model Require Import Names ParFile Util.
From Coq Require Import List. Import ListNotations.
Local Open Scope Q_scope.

(** str.upper of one ASCII character *)
Definition up (c : ascii) : ascii := let n := nat_of_ascii c in if (Nat.leb 97 n && Nat.leb n 122)%bool then ascii_of_nat (n - 32) else c.
Definition dash : ascii := "-"%char.
(** 322-323 *)
Definition colour_name (b1 b2 : str) : str := (map up b1 ++ dash :: map up b2)%list.
(** 266-269: a comma in the entry separates names, otherwise each letter is one *)
Definition template_bands (entry : str) : list str :=
  if existsb (Ascii.eqb comma) entry then splitc (rstrip ws entry) else map (fun c => [c]) (rstrip ws entry).
(** 271-274 *)
Fixpoint colour_names (bands : list str) : list str :=
  match bands with a :: ((b :: _) as t) => colour_name a b :: colour_names t | _ => [] end.
(** list.index *)
Fixpoint index_of (n : str) (l : list str) : option nat :=
  match l with [] => None | x :: t => if str_eqb x n then Some 0%nat else option_map S (index_of n t) end.
(** template.color[:, index] *)
Definition column (rows : list (list Q)) (i : nat) : res (list Q) :=
  fold_right (fun r acc => match nth_error r i with Some x => do t <- acc; Ok (x :: t) | None => Err IndexError end) (Ok []) rows.

Record template := mkTemplate { t_entry : str; t_z : list Q; t_rows : list (list Q) }.
(** 244-274: the template is looked for among the package's data, then on disk *)
Definition open_template (package disk : option template) : res template :=
  match package with Some t => Ok t | None => match disk with Some t => Ok t | None => Err IOError end end.
(** 298-305, for one redshift of the list *)
Definition initial_colour (t : template) (b1 b2 : str) (z : Q) : res Q :=
  match index_of (colour_name b1 b2) (colour_names (template_bands (t_entry t))) with
  | None => Err ValueError
  | Some i => do v <- column (t_rows t) i; interpol v (t_z t) z
  end.
