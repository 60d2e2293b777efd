(** Volumes and arcs. *)
From Coq Require Import QArith Qround Reals.
From Verif.Base Require Import Py.
From Coq Require Import List. Import ListNotations.

(** a volume: the difference of the volumes out to two redshifts, which grow with redshift *)
Definition is_volume (V : Q -> Q -> R) : Prop := exists F : Q -> R, (forall a b, V a b = (F b - F a)%R) /\ (forall a b, (a < b)%Q -> (F a < F b)%R) /\ (forall a b, (a == b)%Q -> F a = F b).
(** all positions are within [len] degrees to the east of [start] *)
Definition on_arc (start len : Q) (ra : list Q) : Prop := forall x, In x ra -> (0 <= x < 360)%Q /\ exists t, (0 <= t <= len)%Q /\ ((x == start + t)%Q \/ (x == start + t - 360)%Q).
Fixpoint sumR (l : list R) : R := match l with [] => 0%R | x :: t => (x + sumR t)%R end.
Fixpoint sumN (l : list nat) : nat := match l with [] => O | x :: t => (x + sumN t)%nat end.
