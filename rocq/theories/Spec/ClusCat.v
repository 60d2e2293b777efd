(** What the columns of a catalogue of clusters are to be: those of the input, under lower-case names and with their contents, followed
    by the wanted ones that the input lacks, filled with zeros. *)
From Coq Require Import String.
From Verif.Base Require Import Py.
From Verif.Model Require Import Catalog.
From Verif.Spec Require Import Catalog.

(** the wanted columns (in lower case) that are not among [have] *)
Definition lacking (have want : list string) : list string :=
  filter (fun x => if in_dec string_dec x have then false else true) (map lower want).
(** the completed table *)
Definition completed (arr : table) (want : list string) : table :=
  let old := all_columns [arr] in
  mkT (nrows arr) (old ++ map (fun x => (x, repeat 0%Z (nrows arr))) (lacking (map fst old) want)).
(** the names of a table, in lower case, are distinct and its columns have its length *)
Definition proper (arr : table) : Prop :=
  NoDup (map fst (all_columns [arr])) /\ Forall (fun c => List.length (snd c) = nrows arr) (cols arr).
(** the rows that are left after picking the row numbers [idx] of the rows [rows] *)
Definition pick (rows idx : list nat) : list nat := map (fun i => nth i rows 0) idx.
(** every pick is among the rows that are there *)
Fixpoint in_range (n : nat) (l : list (list nat)) : Prop :=
  match l with
  | [] => True
  | i :: r => (forall j, In j i -> j < n) /\ in_range (List.length i) r
  end.
