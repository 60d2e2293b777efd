From Coq Require Import QArith.
From Verif.Base Require Import Py.
From Verif.Model Require Import Runner Colormem.
Local Open Scope nat_scope.
(** the number of the interval a redshift belongs to: how many boundaries are below it *)
Definition interval (inner : list Q) (z : Q) : nat := length (filter (fun b => Qlt_bool b z) inner).
Definition on_boundary (inner : list Q) (z : Q) : Prop := exists b, In b inner /\ (b == z)%Q.
(** the richness of a cluster that has all its neighbours for itself; -1 when it cannot be measured *)
Definition alone (p : cl -> list Q -> outcome) (c : cl) : Q :=
  match cl_nb c with
  | [] => (-1)%Q
  | l => let o := p c (map (fun _ => 1%Q) l) in if oc_bad o then (-1)%Q else oc_lambda o
  end.
