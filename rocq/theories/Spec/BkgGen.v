From Verif.Base Require Import Py.
(** Every index 0..n-1 appears in exactly one of the lists, exactly once. *)
Definition each_once (ws : list (list nat)) (n : nat) : Prop :=
  NoDup (List.concat ws) /\ forall j, In j (List.concat ws) <-> j < n.
