(** Specification vocabulary for catalogs: a well-formed table has distinct column
    names and columns as long as its row count; a row is the association of
    every column name with its cell. *)
From Coq Require Import String.
From Verif.Base Require Import Py.
From Verif.Model Require Import Catalog.

Definition wf (t : table) : Prop :=
  NoDup (map fst (cols t)) /\ Forall (fun c => List.length (snd c) = nrows t) (cols t).

(** All (lower-cased) named columns of a list of tables, in order. *)
Definition all_columns (ts : list table) : list (string * list Z) :=
  List.concat (map (fun t => map (fun c => (lower (fst c), snd c)) (cols t)) ts).

(** The value of column [x] at row [i]. *)
Definition cell (t : table) (x : string) (i : nat) : option Z :=
  match find (fun c => String.eqb (fst c) x) (cols t) with
  | Some c => nth_error (snd c) i
  | None => None
  end.

(** A whole column. *)
Definition column (t : table) (x : string) : option (list Z) :=
  match find (fun c => String.eqb (fst c) x) (cols t) with Some c => Some (snd c) | None => None end.

(** rows contributed to column [x] by one growth step *)
Definition piece (x : string) (g : grow) : list Z :=
  match g with
  | GAppend u => match column u x with Some v => v | None => [] end
  | GExtend n => repeat 0%Z n
  end.

Definition piece_rows (g : grow) : nat :=
  match g with GAppend u => nrows u | GExtend n => n end.
