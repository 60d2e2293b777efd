(** What a user expects of masks and redshift corrections. *)
From Coq Require Import QArith.
From Coq Require Import List. Import ListNotations.
Local Open Scope Q_scope.

(** a galaxy at position [p] with the random number [u] survives the mask [m] *)
Definition survives (m : nat -> option Q) (g : nat * Q) : Prop := exists fr, m (fst g) = Some fr /\ snd g < fr.
(** a range is a whole number of bins *)
Definition whole (z0 z1 bin : Q) (n : nat) : Prop := 0 < bin /\ z1 - z0 == bin * inject_Z (Z.of_nat n).
