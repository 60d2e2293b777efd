(** What the likelihood of a cluster has to be, without reference to the code. *)
From Coq Require Import Reals Permutation List.
From Verif.Model Require Import Likelihood.
Import ListNotations.
Local Open Scope R_scope.

(** a neighbour at the smallest radius *)
Definition closest (l : list nbr) (n : nbr) : Prop := forall m, In m l -> b_r n <= b_r m.
(** the neighbours are split into those at the smallest radius and all the others *)
Definition split_closest (l near far : list nbr) : Prop :=
  Permutation l (near ++ far) /\ (forall n, In n near -> closest l n) /\ (forall n, In n far -> ~ closest l n).
(** the sum of a function of the membership probability *)
Fixpoint total (f : R -> R) (l : list nbr) : R := match l with [] => 0 | n :: t => f (b_p n) + total f t end.
