(** What the model of the red sequence is fitted to. *)
From Coq Require Import QArith Qabs.
From Verif.Base Require Import Py.
From Verif.Model Require Import RedModel.
From Coq Require Import List. Import ListNotations.
Local Open Scope nat_scope.

(** a value in position k (from 0) of the sorted list *)
Definition at_rank (k : nat) (l : list Q) (x : Q) : Prop :=
  In x l /\ List.length (filter (fun y => Qlt_bool y x) l) <= k < List.length (filter (fun y => Qle_bool y x) l).
(** the offset of a galaxy from the initial color *)
Definition offset (T : fits) (j : nat) (g : sgal) : Q := (g_col g j - t_init T j (g_z g))%Q.
(** two samples of galaxies that agree in redshift, in color j, its error and the errors of its two magnitudes *)
Definition agree (j : nat) : list sgal -> list sgal -> Prop :=
  Forall2 (fun a b => g_z a = g_z b /\ g_col a j = g_col b j /\ g_err a j = g_err b j /\ g_merr a j = g_merr b j /\ g_merr a (j + 1) = g_merr b (j + 1)).
