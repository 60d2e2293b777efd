(** The columns with which a run is to start. *)
From Coq Require Import String.
From Verif.Base Require Import Py.
From Verif.Model Require Import Catalog ClusCat.
From Verif.Spec Require Import Catalog.
From Coq Require Import List.
Import ListNotations.
Local Open Scope string_scope.

(** a table of random points: its columns, each with one entry per point *)
Definition points (t : table) (ra dec id z lam idin : list Z) : Prop :=
  column t "ra" = Some ra /\ column t "dec" = Some dec /\ column t "id" = Some id /\ column t "z" = Some z /\
  column t "lambda" = Some lam /\ column t "id_input" = Some idin /\
  Forall (fun v => List.length v = nrows t) [ra; dec; id; z; lam; idin].
(** the identifiers 1, 2, ..., n *)
Definition one_to (n : nat) : list Z := map (fun k => Z.of_nat k + 1)%Z (seq 0 n).
(** two tables have the same columns, in the same order, and differ only in the columns named *)
Definition differ_in (l : list string) (t u : table) : Prop :=
  nrows u = nrows t /\ names u = names t /\ forall x, ~ In x l -> column u x = column t x.
(** how a catalogue relates to its file: the same rows, every column of the file kept except those named, and the columns of a
    configured catalogue that the file lacks zero except those named *)
Definition opened (touched : list string) (file t : table) : Prop :=
  nrows t = nrows file /\
  (forall x v, In (x, v) (cols file) -> ~ In (lower x) touched -> column t (lower x) = Some v) /\
  (forall x, In x config_columns -> ~ In (lower x) (map fst (all_columns [file])) -> ~ In (lower x) touched ->
     column t (lower x) = Some (repeat 0%Z (nrows file))).
(** the identifiers of the file: [Some ids], or none *)
Definition file_ids (file : table) (o : option (list Z)) : Prop :=
  match o with
  | Some ids => exists x, In (x, ids) (cols file) /\ lower x = "mem_match_id"
  | None => ~ In "mem_match_id" (map fst (all_columns [file]))
  end.
(** the identifiers of a run: distinct ones stay, with two clusters or more; clusters without are counted *)
Definition run_ids (n : nat) (o : option (list Z)) (ids : list Z) : Prop :=
  match o with
  | Some l => NoDup l /\ 2 <= List.length l /\ ids = l
  | None => 1 <= n /\ ids = one_to n
  end.
