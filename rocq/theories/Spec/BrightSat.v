(** What the properties about the brightest satellites speak about. *)
From Coq Require Import Reals List Permutation.
Import ListNotations.
Local Open Scope R_scope.

(** the three smallest of a list, in order *)
Definition three_smallest (l : list R) (a b c : R) : Prop := exists rest, Permutation (a :: b :: c :: rest) l /\ a <= b <= c /\ forall x, In x rest -> c <= x.
(** the sum of the squared distances of points from a line *)
Fixpoint squares (x y : list R) (p : R * R) : R :=
  match x, y with u :: x', v :: y' => (fst p + snd p * u - v) ^ 2 + squares x' y' p | _, _ => 0 end.
