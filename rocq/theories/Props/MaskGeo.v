(** C188: where the mask galaxies are. *)
From Coq Require Import Reals Lra Lia.
From Verif.Model Require Import MaskGeo.
From Verif.Spec Require Import MaskGeo.
From Verif.Proofs Require Import MaskGeo.
Local Open Scope R_scope.

(** A mask galaxy is at the distance drawn for it, and no direction comes twice. *)
Theorem C188_profile r u : 0 <= r -> distance (place r u) = r.
Proof. intros H. apply polar, H. Qed.
Print Assumptions C188_profile.
Theorem C188_direction r u v : 0 < r -> 0 <= u < 1 -> 0 <= v < 1 -> place r u = place r v -> u = v.
Proof.
  intros H U V E. unfold place in E. injection E as E1 E2. apply Rmult_eq_reg_l in E1, E2; try lra. pose proof two_pi as P.
  assert (- (2 * PI) < 2 * PI * (u - v) < 2 * PI). { split; [replace (- (2 * PI)) with (2 * PI * -1) by ring|replace (2 * PI) with (2 * PI * 1) at 2 by ring]; apply Rmult_lt_compat_l; lra. }
  assert (A : 2 * PI * u = 2 * PI * v) by (apply same_angle; [lra|assumption|assumption]). apply Rmult_eq_reg_l in A; lra.
Qed.
Print Assumptions C188_direction.
(** A quarter turn of the random number is a quarter turn of the position. *)
Theorem C188_turn r u : place r (u + 1/4) = (- snd (place r u), fst (place r u)).
Proof.
  unfold place. cbn [fst snd]. replace (2 * PI * (u + 1/4)) with (PI / 2 + 2 * PI * u) by field. rewrite cos_plus, sin_plus, cos_PI2, sin_PI2. f_equal; ring.
Qed.
Print Assumptions C188_turn.
(** The uniform positions are inside the outer radius, and the share of random numbers that leads within a distance is the
    share of the area within it. *)
Theorem C188_uniform size u v d : 0 < size -> 0 <= u < 1 -> 0 <= d -> distance (place_uniform size u v) < size /\
  (distance (place_uniform size u v) <= d <-> u <= disc d / disc size).
Proof.
  intros S0 U D. unfold place_uniform. rewrite polar by (apply Rmult_le_pos; [lra|apply sqrt_pos]). pose proof PI_RGT_0 as P. split.
  - assert (sqrt u < sqrt 1) by (apply sqrt_lt_1; lra). rewrite sqrt_1 in H. replace size with (size * 1) at 2 by ring. apply Rmult_lt_compat_l; lra.
  - assert (Q : disc d / disc size = (d / size) * (d / size)) by (unfold disc; field; lra). rewrite Q. set (q := d / size).
    assert (Hq : 0 <= q). { unfold q, Rdiv. apply Rmult_le_pos; [lra|left; apply Rinv_0_lt_compat, S0]. } assert (Ed : d = size * q) by (unfold q; field; lra). rewrite Ed. split; intros H.
    + apply Rmult_le_reg_l in H; [|exact S0]. rewrite <- (sqrt_sqrt u) by lra. apply Rmult_le_compat; try apply sqrt_pos; assumption.
    + apply Rmult_le_compat_l; [lra|]. rewrite <- (sqrt_square q) by exact Hq. apply sqrt_le_1; [lra|apply Rmult_le_pos; exact Hq|exact H].
Qed.
Print Assumptions C188_uniform.
(** and its direction is spread like that of the others *)
Theorem C188_uniform_direction size u v w : 0 < size -> 0 < u -> 0 <= v < 1 -> 0 <= w < 1 -> place_uniform size u v = place_uniform size u w -> v = w.
Proof.
  intros S U V W. assert (E : forall x, place_uniform size u x = place (size * sqrt u) x) by (intros x; unfold place_uniform, place; replace (x * 2 * PI) with (2 * PI * x) by ring; reflexivity).
  rewrite !E. apply C188_direction; [|assumption|assumption]. apply Rmult_lt_0_compat; [exact S|apply sqrt_lt_R0, U].
Qed.
Print Assumptions C188_uniform_direction.
Theorem C188_uniform_turn size u v : place_uniform size u (v + 1/4) = (- snd (place_uniform size u v), fst (place_uniform size u v)).
Proof.
  assert (E : forall x, place_uniform size u x = place (size * sqrt u) x) by (intros x; unfold place_uniform, place; replace (x * 2 * PI) with (2 * PI * x) by ring; reflexivity).
  rewrite !E. apply C188_turn.
Qed.
Print Assumptions C188_uniform_turn.
(** The weight of a redshift offset is positive, the same on both sides, and falls with the distance from zero as a Gaussian:
    the logarithm of the ratio of two weights is half the difference of the squares in units of the error. *)
Theorem C188_weight err d e : 0 < err -> 0 < zred_weight err d /\ zred_weight err (- d) = zred_weight err d /\
  (Rabs d < Rabs e <-> zred_weight err e < zred_weight err d) /\
  zred_weight err e / zred_weight err d = exp (((d / err) * (d / err) - (e / err) * (e / err)) / 2).
Proof.
  intros E. pose proof PI_RGT_0 as P. assert (K : 0 < 1 / (sqrt (2 * PI) * err)). { unfold Rdiv. rewrite Rmult_1_l. apply Rinv_0_lt_compat, Rmult_lt_0_compat; [apply sqrt_lt_R0; lra|exact E]. }
  unfold zred_weight. set (k := 1 / (sqrt (2 * PI) * err)) in *. assert (X : forall x, 0 < exp x) by apply exp_pos.
  assert (Q : 0 < / (2 * (err * err))). { apply Rinv_0_lt_compat. assert (0 < err * err) by (apply Rmult_lt_0_compat; exact E). lra. }
  split; [apply Rmult_lt_0_compat; auto|]. split; [replace (- d * - d) with (d * d) by ring; reflexivity|]. split.
  - assert (A : Rabs d < Rabs e <-> d * d < e * e). { split; intros H; [apply Rsqr_lt_abs_1|apply Rsqr_lt_abs_0]; assumption. } rewrite A. clear A. split; intros H.
    + apply Rmult_lt_compat_l; [exact K|]. apply exp_increasing. unfold Rdiv. apply Rmult_lt_compat_r; [exact Q|lra].
    + apply Rmult_lt_reg_l in H; [|exact K]. apply exp_lt_inv in H. unfold Rdiv in H. apply Rmult_lt_reg_r in H; [lra|exact Q].
  - unfold Rdiv at 1. rewrite Rinv_mult. replace (k * exp (- (e * e) / (2 * (err * err))) * (/ k * / exp (- (d * d) / (2 * (err * err))))) with ((k * / k) * (exp (- (e * e) / (2 * (err * err))) * / exp (- (d * d) / (2 * (err * err))))) by ring.
    rewrite Rinv_r by lra. rewrite Rmult_1_l, <- exp_Ropp, <- exp_plus. f_equal. field. lra.
Qed.
Print Assumptions C188_weight.
(** non-vacuity: the random number 1/4 leads to half the outer radius *)
Example C188_ex v : distance (place_uniform 2 (1/4) v) = 1.
Proof. unfold place_uniform. replace (sqrt (1/4)) with (1/2). - rewrite polar; lra. - symmetry. replace (1/4) with (1/2 * (1/2)) by lra. apply sqrt_square. lra. Qed.
