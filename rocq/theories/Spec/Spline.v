(** Specification for C112: matrices in banded storage, increasing nodes, interpolation. *)
From Coq Require Import Reals.
From Verif.Base Require Import Py.
Local Open Scope R_scope.

Fixpoint sum_to (n : nat) (f : nat -> R) : R := match n with O => 0 | S k => sum_to k f + f k end.
(** scipy's storage ab[u + i - j, j] = a[i, j] with one diagonal above and below; [ab r j] is the array *)
Definition entry (ab : nat -> nat -> R) (i j : nat) : R := if Nat.leb (i - j) 1 && Nat.leb (j - i) 1 then ab (1 + i - j)%nat j else 0.
Definition solution (n : nat) (ab : nat -> nat -> R) (bb u : nat -> R) : Prop := forall i, (i < n)%nat -> sum_to n (fun j => entry ab i j * u j) = bb i.
Definition increasing (n : nat) (x : nat -> R) : Prop := forall i, (i + 1 < n)%nat -> x i < x (i + 1)%nat.
(** a natural cubic spline: twice continuously differentiable, a cubic on each interval (its second derivative is a straight line
    there), without curvature at the ends *)
Definition natural_cubic (n : nat) (x : nat -> R) (f : R -> R) : Prop := exists f1 f2 : R -> R,
  (forall v, derivable_pt_lim f v (f1 v)) /\ (forall v, derivable_pt_lim f1 v (f2 v)) /\ continuity f2 /\
  (forall i, (i + 1 < n)%nat -> exists p q, forall v, x i <= v <= x (i + 1)%nat -> f2 v = p + q * v) /\
  f2 (x 0%nat) = 0 /\ f2 (x (n - 1)%nat) = 0.
