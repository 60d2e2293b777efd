From Coq Require Import QArith Lqa.
From Verif.Base Require Import Py PyLemmas.
From Verif.Model Require Import ClusterZ.
From Verif.Spec Require Import ClusterZ.
Local Open Scope nat_scope.

Lemma Qmax2_r x y : (y <= Qmax2 x y)%Q.
Proof. unfold Qmax2. destruct (Qle_bool x y) eqn:E; [lra|]. apply Qle_bool_false in E. lra. Qed.

Lemma compute_r_fields c : k_z (compute_r c) = k_z c /\ k_mstar (compute_r c) = k_mstar c /\ k_scale (compute_r c) = k_scale c.
Proof. unfold compute_r. destruct (k_nb c), (k_z c) eqn:E, (k_scale c) eqn:E2; cbn; auto. Qed.

Lemma scale_sync_ext co c d : k_z c = k_z d -> k_mstar c = k_mstar d -> k_scale c = k_scale d -> scale_sync co c -> scale_sync co d.
Proof. unfold scale_sync. intros -> -> ->. auto. Qed.

Lemma compute_r_sync co c : scale_sync co c -> scale_sync co (compute_r c) /\ radius_sync co (compute_r c).
Proof.
  intros H. destruct (compute_r_fields c) as (E1 & E2 & E3). split; [eapply scale_sync_ext; [| | |exact H]; congruence|].
  intros z l Hz Hl n Hn. unfold compute_r in *. unfold scale_sync in H. rewrite E1 in Hz. rewrite Hz in *.
  destruct H as (_ & _ & Hs). rewrite Hs in *. destruct (k_nb c) as [l0|] eqn:El; [|rewrite El in Hl; discriminate].
  cbn [k_nb] in Hl. injection Hl as <-. apply in_map_iff in Hn as (m & <- & _). cbn [z_r z_dist].
  split; [reflexivity|apply Qmax2_r].
Qed.

Lemma set_redshift_sync co z c c' : set_redshift co z c = Ok c' -> scale_sync co c' /\ radius_sync co c' /\ k_z c' = Some (Qmax2 z (1#100)).
Proof.
  unfold set_redshift. destruct (Qlt_bool z 0); [discriminate|]. cbv zeta. intros [= <-].
  destruct (compute_r_sync co (mkCZ (Some (Qmax2 z (1#100))) (Some (co_mstar co (Qmax2 z (1#100)))) (Some (co_scale co (Qmax2 z (1#100)))) (k_nb c))) as [H1 H2].
  - unfold scale_sync. cbn [k_z k_mstar k_scale]. split; [apply Qmax2_r|auto].
  - split; [exact H1|]. split; [exact H2|]. apply compute_r_fields.
Qed.

Lemma cstep_scale co o c : scale_sync co c -> scale_sync co (fst (cstep co o c)).
Proof.
  intros H. destruct o as [z|l|l|l|]; cbn [cstep fst].
  - destruct (set_redshift co z c) eqn:E; cbn [fst]; [apply (set_redshift_sync _ _ _ _ E)|exact H].
  - exact H.
  - apply compute_r_sync. exact H.
  - unfold update_dist. destruct (k_nb c); cbn [fst]; [apply compute_r_sync; exact H|exact H].
  - exact H.
Qed.

Lemma cstep_radius co o c : no_set o -> scale_sync co c -> radius_sync co c -> radius_sync co (fst (cstep co o c)).
Proof.
  intros Hn H Hr. destruct o as [z|l|l|l|]; cbn [cstep fst].
  - destruct (set_redshift co z c) eqn:E; cbn [fst]; [apply (set_redshift_sync _ _ _ _ E)|exact Hr].
  - destruct Hn.
  - apply compute_r_sync. exact H.
  - unfold update_dist. destruct (k_nb c); cbn [fst]; [apply compute_r_sync; exact H|exact Hr].
  - intros z l _ Hl. discriminate.
Qed.

Lemma crun_snoc co ops o c : crun co (ops ++ [o]) c = fst (cstep co o (crun co ops c)).
Proof. unfold crun. rewrite fold_left_app. reflexivity. Qed.

Lemma new_scale co nbs z h : scale_sync co (new_cluster co nbs z h).
Proof.
  unfold new_cluster. destruct (_ && _); [|split; reflexivity].
  destruct (set_redshift _ _ _) eqn:E; [apply (set_redshift_sync _ _ _ _ E)|split; reflexivity].
Qed.
Lemma new_radius co nbs z h : radius_sync co (new_cluster co nbs z h).
Proof.
  unfold new_cluster. destruct (_ && _); [|intros x l Hz; discriminate].
  destruct (set_redshift _ _ _) eqn:E; [apply (set_redshift_sync _ _ _ _ E)|intros x l Hz; discriminate].
Qed.

Lemma crun_scale co ops c : scale_sync co c -> scale_sync co (crun co ops c).
Proof.
  intros H. induction ops as [|o ops IH] using rev_ind; [exact H|]. rewrite crun_snoc. apply cstep_scale, IH.
Qed.
Lemma crun_radius co ops c : Forall no_set ops -> scale_sync co c -> radius_sync co c -> radius_sync co (crun co ops c).
Proof.
  intros Hn H Hr. induction ops as [|o ops IH] using rev_ind; [exact Hr|]. apply Forall_app in Hn as [Hn Ho].
  apply Forall_inv in Ho. rewrite crun_snoc. apply cstep_radius; [exact Ho|apply crun_scale, H|apply IH, Hn].
Qed.
