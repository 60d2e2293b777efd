(** Specification for C165. *)
From Coq Require Import QArith.
Local Open Scope Q_scope.

(** volumes add up *)
Definition additive (V : Q -> Q -> Q) : Prop := forall a b c, V a b + V b c == V a c.
Definition proper (V : Q -> Q -> Q) : Prop := forall a b c d, a == c -> b == d -> V a b == V c d.
