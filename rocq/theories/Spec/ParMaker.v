From Verif.Base Require Import Py.

(** Rows destined for pixel [p] in a list of writes. *)
Definition rows_for (p : nat) (ws : list (nat * list Z)) : list Z :=
  List.concat (map snd (filter (fun w => Nat.eqb (fst w) p) ws)).
(** The writes of process [i] in a global history. *)
Definition writes_of (i : nat) (h : list (nat * (nat * list Z))) : list (nat * list Z) :=
  map snd (filter (fun w => Nat.eqb (fst w) i) h).
