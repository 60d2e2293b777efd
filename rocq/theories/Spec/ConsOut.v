(** What the properties about the outputs of a consolidation speak about. *)
From Coq Require Import Ascii String QArith.
From Verif.Base Require Import Py.
From Verif.Model Require Import Names Consolidate ConsOut.
From Coq Require Import List. Import ListNotations.

(** the whole part of a number that is 0 or above *)
Definition whole (x : Q) (n : Z) : Prop := (inject_Z n <= x)%Q /\ (x < inject_Z n + 1)%Q.
(** the tables that the consolidation makes for this cut and mask alone *)
Definition alone (asort : list Q -> list nat) (q : pcut) (sel : bool) (fs : list pfile) (o : output) (t : tables) : Prop :=
  consolidate_task asort q sel (o_zmax o) (o_minl o) fs = Ok t.
