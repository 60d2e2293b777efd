(** Specification for C154, C155 and C156. *)
From Coq Require Import Reals Lra String List. Import ListNotations.
From Verif.Model Require Import CentRich.
Local Open Scope R_scope.

(** what a cluster keeps in step with its redshift *)
Definition in_step (mstar scale : R -> R) (c : cl) : Prop :=
  exists z, 1 / 100 <= z /\ c_z c = Some z /\ c_mstar c = Some (mstar z) /\ c_scale c = Some (scale z) /\
    forall l n, c_nbs c = Some l -> In n l -> n_r n = Rmax (scale z * n_dist n) (1 / 1000000).
Definition expect (p x : list R) : R := fold_right Rplus 0 (map (fun q => fst q * snd q) (combine p x)).
