(** Distances and areas. *)
From Coq Require Import Reals.
Local Open Scope R_scope.

Definition distance (p : R * R) : R := sqrt (fst p * fst p + snd p * snd p).
Definition disc (r : R) : R := PI * (r * r).
