(** C20: derived quantities follow the redshift. *)
From Coq Require Import QArith Lqa.
From Verif.Base Require Import Py PyLemmas.
From Verif.Model Require Import ClusterZ.
From Verif.Spec Require Import ClusterZ.
From Verif.Proofs Require Import ClusterZ.
Local Open Scope nat_scope.

(** After an accepted assignment, at any point of any history, mstar, scale and all radii belong to the stored
    redshift, which is the assigned one or 0.01 if that was smaller. *)
Theorem C20_assignment : forall co nbs z0 h ops z c', set_redshift co z (crun co ops (new_cluster co nbs z0 h)) = Ok c' ->
  k_z c' = Some (Qmax2 z (1#100)) /\ scale_sync co c' /\ radius_sync co c'.
Proof. intros co nbs z0 h ops z c' H. destruct (set_redshift_sync _ _ _ _ H) as (A & B & C). auto. Qed.
Print Assumptions C20_assignment.

(** Negative redshifts are rejected, and only they; the cluster stays as it was. *)
Theorem C20_negative : forall co z c,
  ((z < 0)%Q -> cstep co (OpZ z) c = (c, Some ValueError)) /\ ((0 <= z)%Q -> snd (cstep co (OpZ z) c) = None).
Proof.
  intros co z c. split; intros H; cbn [cstep]; unfold set_redshift.
  - apply Qlt_bool_iff in H. rewrite H. reflexivity.
  - apply Qlt_bool_false in H. rewrite H. reflexivity.
Qed.
Print Assumptions C20_negative.

(** mstar and the angular scale belong to the stored redshift after every history of operations. *)
Theorem C20_scale_always : forall co nbs z h ops, scale_sync co (crun co ops (new_cluster co nbs z h)).
Proof. intros. apply crun_scale, new_scale. Qed.
Print Assumptions C20_scale_always.

(** So do the radii, if neighbours are only replaced by find_neighbors. *)
Theorem C20_radius_partial : forall co nbs z h ops, Forall no_set ops -> radius_sync co (crun co ops (new_cluster co nbs z h)).
Proof. intros. apply crun_radius; [assumption|apply new_scale|apply new_radius]. Qed.
Print Assumptions C20_radius_partial.

(** set_neighbors on a cluster that has a redshift leaves the radii it was given. *)
Theorem C20_set_neighbors_refuted : forall co z, (0 < z)%Q ->
  exists l, ~ radius_sync co (crun co [OpSet l] (new_cluster co None z true)).
Proof.
  intros co z Hz. exists [mkNZ 1 0]. unfold new_cluster, set_redshift.
  assert (H0 : Qlt_bool 0 z = true) by (apply Qlt_bool_iff, Hz). rewrite H0. cbn [andb].
  assert (H1 : Qlt_bool z 0 = false) by (apply Qlt_bool_false; lra). rewrite H1. cbv zeta. cbn.
  intros H. destruct (H (Qmax2 z (1#100)) [mkNZ 1 0] eq_refl eq_refl (mkNZ 1 0) (or_introl eq_refl)) as [_ H2].
  cbn [z_r] in H2. lra.
Qed.
Print Assumptions C20_set_neighbors_refuted.

Example C20_case : exists c', set_redshift (mkCO (fun z => 18 + z)%Q (fun z => 25 * z)%Q) (1#5)
    (crun (mkCO (fun z => 18 + z)%Q (fun z => 25 * z)%Q) [OpFind [1#10; 0]%Q; OpZ (-1)] (new_cluster (mkCO (fun z => 18 + z)%Q (fun z => 25 * z)%Q) None (1#4) true)) = Ok c' /\
  option_map (map (fun n => Qred (z_r n))) (k_nb c') = Some [1#2; 1#1000000]%Q.
Proof. eexists. split; vm_compute; reflexivity. Qed.
