(** Vocabulary for the statements about the run modes. *)
From Coq Require Import QArith Qabs.
From Verif.Base Require Import Py.
From Verif.Model Require Import Modes.
Local Open Scope nat_scope.
Local Open Scope list_scope.

(** a pass at redshift z, the nth, gives a usable richness and redshift *)
Definition usable (o : oracle) (n : nat) (z : Q) : Prop := (3 <= rich o n z)%Q /\ (0 <= fst (zlam o n z))%Q.
(** [v] is a largest element of the list of likelihoods of the usable redshifts *)
Definition best_like (steps : list step_result) (v : Q) : Prop := forall l lk, In (Some (l, lk)) steps -> (lk <= v)%Q.
Definition some_usable (steps : list step_result) : Prop := exists l lk, In (Some (l, lk)) steps.
(** draws of np.random.rand *)
Definition unit_draws (u : nat -> Q) : Prop := forall k, (0 <= u k /\ u k < 1)%Q.
