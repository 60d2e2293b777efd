(** What is held: an attribute exists. *)
From Coq Require Import List.
From Verif.Model Require Import Release.
Definition holds {A} (u : runner A) (t : thing) : Prop := In t (u_held u).
