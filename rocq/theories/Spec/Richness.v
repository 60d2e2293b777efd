From Coq Require Import Reals Lra.
From Verif.Base Require Import Py.
From Verif.Model Require Import BkgGen Solver Richness.
Local Open Scope R_scope.

(** the five result fields of a neighbour are zero *)
Definition zeroed (x : nb) : Prop := n_thi x = 0 /\ n_thr x = 0 /\ n_p x = 0 /\ n_pcol x = 0 /\ n_pmem x = 0.
(** same galaxy *)
Definition same_gal (x y : nb) : Prop := n_r x = n_r y /\ n_mag x = n_mag y /\ n_err x = n_err y /\ n_pfree x = n_pfree y.
(** indices are distinct and in range *)
Definition idx_ok (nbs : list nb) (idx : list nat) : Prop := NoDup idx /\ Forall (fun i => (i < List.length nbs)%nat) idx.
(** physical inputs *)
Definition nb_ok (f : filt) (x : nb) : Prop :=
  0 <= n_pfree x <= 1 /\ 0 <= f_u f x /\ 0 <= f_col f x /\ (forall b, f_b f x = Bval b -> 0 <= b).
(** the error function is nondecreasing with values in [-1,1] *)
Definition erf_mono (erf : R -> R) : Prop := forall x y, x <= y -> erf x <= erf y.
