(** Covariance matrices of a fit of one correlation: the quadratic form, and what the least eigenvalue is. *)
From Coq Require Import Reals.
From Coq Require Import List. Import ListNotations.
Local Open Scope R_scope.

Definition total (n : nat) (f : nat -> R) : R := fold_right Rplus 0 (map f (seq 0 n)).
(** the variance of the combination [v] of [n] colors with covariances [a] *)
Definition variance (n : nat) (a : nat -> nat -> R) (v : nat -> R) : R := total n (fun i => total n (fun j => v i * a i j * v j)).
Definition square (n : nat) (v : nat -> R) : R := total n (fun i => v i ^ 2).
(** at least [m] in every direction *)
Definition at_least (n : nat) (m : R) (a : nat -> nat -> R) : Prop := forall v, m * square n v <= variance n a v.
Definition symmetric (n : nat) (a : nat -> nat -> R) : Prop := forall i j, (i < n)%nat -> (j < n)%nat -> a i j = a j i.
Definition is_least (n : nat) (least : (nat -> nat -> R) -> R) : Prop := forall a m, symmetric n a -> (m <= least a <-> at_least n m a).
(** [a] with the correlation [r] between [j] and [k] *)
Definition with_correlation (j k : nat) (r : R) (a : nat -> nat -> R) (i l : nat) : R :=
  if (Nat.eqb i j && Nat.eqb l k || Nat.eqb i k && Nat.eqb l j)%bool then r * sqrt (a j j) * sqrt (a k k) else a i l.
