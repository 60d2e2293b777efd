(** What reading a map for a region promises. *)
From Coq Require Import PeanoNat Lia List. Import ListNotations.

(** position [p] of order [D] lies in pixel [q] of order [k] *)
Definition lies_in (D k q p : nat) : Prop := q * 4 ^ (D - k) <= p < (q + 1) * 4 ^ (D - k).
(** it lies in the region: in one of the pixels, which are given by their numbers in rings *)
Definition in_region (r2n : nat -> nat -> nat) (D s : nat) (hpix : list nat) (p : nat) : Prop := exists h, In h hpix /\ lies_in D s (r2n s h) p.
