(** Proofs about the positions of the mask galaxies. *)
From Coq Require Import Reals Lra Lia.
From Verif.Spec Require Import MaskGeo.
From Verif.Model Require Import MaskGeo.
Local Open Scope R_scope.

Lemma polar r t : 0 <= r -> distance (r * cos t, r * sin t) = r.
Proof.
  intros H. unfold distance. cbn [fst snd]. replace (r * cos t * (r * cos t) + r * sin t * (r * sin t)) with (r * r * (Rsqr (sin t) + Rsqr (cos t))) by (unfold Rsqr; ring).
  rewrite sin2_cos2, Rmult_1_r. apply sqrt_square, H.
Qed.
Lemma cos_one x : - (2 * PI) < x < 2 * PI -> cos x = 1 -> x = 0.
Proof.
  intros B C. assert (S0 : sin (x / 2) = 0).
  { replace x with (2 * (x / 2)) in C by lra. rewrite cos_2a_sin in C. assert (sin (x / 2) * sin (x / 2) = 0) by lra. destruct (Rmult_integral _ _ H); assumption. }
  destruct (Rtotal_order x 0) as [L|[E|L]]; [exfalso|exact E|exfalso].
  - assert (0 < sin (- (x / 2))) by (apply sin_gt_0; lra). rewrite sin_neg in H. lra.
  - assert (0 < sin (x / 2)) by (apply sin_gt_0; lra). lra.
Qed.
Lemma same_angle a b : - (2 * PI) < a - b < 2 * PI -> cos a = cos b -> sin a = sin b -> a = b.
Proof.
  intros B C S0. assert (cos (a - b) = 1). { rewrite cos_minus, C, S0. pose proof (sin2_cos2 b). unfold Rsqr in H. lra. }
  pose proof (cos_one (a - b) B H). lra.
Qed.
Lemma two_pi : 0 < 2 * PI.
Proof. pose proof PI_RGT_0. lra. Qed.
