(** Proofs about the radial and luminosity filters. *)
From Coq Require Import Reals Lra.
From Verif.Base Require Import Py PyLemmas.
From Verif.Model Require Import Profile.
Local Open Scope R_scope.

(** 2 a < ln ((1+a)/(1-a)) for 0 < a < 1 *)
Lemma atanh_gt a : 0 < a < 1 -> 2 * a < ln ((1 + a) / (1 - a)).
Proof.
  intros [A0 A1]. set (f := fun t => ln (1 + t) - ln (1 - t) - 2 * t). set (f' := fun t => 1 / (1 + t) + 1 / (1 - t) - 2).
  assert (D : forall c, 0 <= c <= a -> derivable_pt_lim f c (f' c)).
  { intros c Hc. unfold f, f'. replace (1 / (1 + c) + 1 / (1 - c) - 2) with ((/ (1 + c) * (0 + 1) - / (1 - c) * (0 - 1)) - 2 * 1) by (field; lra).
    apply derivable_pt_lim_minus; [apply derivable_pt_lim_minus|].
    - apply (derivable_pt_lim_comp (fun t => 1 + t) ln); [apply derivable_pt_lim_plus; [apply derivable_pt_lim_const|apply derivable_pt_lim_id]|apply derivable_pt_lim_ln; lra].
    - apply (derivable_pt_lim_comp (fun t => 1 - t) ln); [apply derivable_pt_lim_minus; [apply derivable_pt_lim_const|apply derivable_pt_lim_id]|apply derivable_pt_lim_ln; lra].
    - apply (derivable_pt_lim_scal (fun t => t) 2), derivable_pt_lim_id. }
  destruct (MVT_cor2 f f' 0 a A0 D) as (c & E & Hc). unfold f in E at 2. rewrite Rplus_0_r, Rminus_0_r, ln_1 in E.
  assert (P : 0 < f' c). { unfold f'. replace (1 / (1 + c) + 1 / (1 - c) - 2) with (2 * c ^ 2 / ((1 + c) * (1 - c))) by (field; lra). apply Rdiv_lt_0_compat; nra. }
  unfold f in E. assert (0 < f' c * (a - 0)) by (apply Rmult_lt_0_compat; lra). unfold Rdiv. rewrite ln_mult, ln_Rinv by (try apply Rinv_0_lt_compat; lra). lra.
Qed.
Lemma atan_lt b : 0 < b -> atan b < b.
Proof.
  intros B. destruct (MVT_cor2 atan (fun t => / (1 + t ^ 2)) 0 b B) as (c & E & Hc).
  { intros c Hc. apply derivable_pt_lim_atan. }
  rewrite atan_0 in E. assert (0 < c ^ 2) by (apply pow_lt; lra). assert (/ (1 + c ^ 2) < 1) by (rewrite <- Rinv_1; apply Rinv_lt_contravar; lra).
  assert (/ (1 + c ^ 2) * (b - 0) < 1 * (b - 0)) by (apply Rmult_lt_compat_r; lra). lra.
Qed.
Lemma root_ratio u v : 0 < u -> 0 < v -> sqrt (u / v) / sqrt (u * v) = / v.
Proof.
  intros U V. assert (0 < sqrt u) by (apply sqrt_lt_R0; exact U). assert (0 < sqrt v) by (apply sqrt_lt_R0; exact V).
  rewrite sqrt_div_alt, sqrt_mult_alt by lra. rewrite <- (sqrt_sqrt v) at 3 by lra. field. lra.
Qed.
Lemma inner_pos x : 0 <= x < 1 -> 0 < x -> exists v, inner_val x = Some v /\ 0 < v.
Proof.
  intros [X0 X1] Xp. unfold inner_val. destruct (Rlt_dec x 1); [|lra]. eexists. split; [reflexivity|].
  set (arg := sqrt ((1 - x) / (1 + x))). assert (A0 : 0 < arg) by (apply sqrt_lt_R0, Rdiv_lt_0_compat; lra).
  assert (A2 : arg ^ 2 = (1 - x) / (1 + x)) by (apply pow2_sqrt; left; apply Rdiv_lt_0_compat; lra).
  assert (A2' : arg ^ 2 * (1 + x) = 1 - x) by (rewrite A2; field; lra). assert (A1 : arg < 1) by nra.
  pose proof (atanh_gt arg (conj A0 A1)) as L.
  assert (S0 : 0 < sqrt (1 - x ^ 2)) by (apply sqrt_lt_R0; nra).
  assert (R : arg / sqrt (1 - x ^ 2) = / (1 + x)) by (unfold arg; replace (1 - x ^ 2) with ((1 - x) * (1 + x)) by ring; apply root_ratio; lra).
  assert (K : 1 < 2 / sqrt (1 - x ^ 2) * (5 / 10) * ln ((1 + arg) / (1 - arg))).
  { replace (2 / sqrt (1 - x ^ 2) * (5 / 10)) with (/ sqrt (1 - x ^ 2)) by (field; lra).
    apply Rlt_trans with (/ sqrt (1 - x ^ 2) * (2 * arg)); [|apply Rmult_lt_compat_l; [apply Rinv_0_lt_compat; exact S0|exact L]].
    replace (/ sqrt (1 - x ^ 2) * (2 * arg)) with (2 * (arg / sqrt (1 - x ^ 2))) by (field; lra). rewrite R.
    apply Rmult_lt_reg_r with (1 + x); [lra|]. rewrite Rmult_assoc, Rinv_l by lra. lra. }
  replace (1 / (x ^ 2 - 1) * (1 - 2 / sqrt (1 - x ^ 2) * (5 / 10) * ln ((1 + arg) / (1 - arg)))) with (1 / (1 - x ^ 2) * (2 / sqrt (1 - x ^ 2) * (5 / 10) * ln ((1 + arg) / (1 - arg)) - 1)).
  - apply Rmult_lt_0_compat; [apply Rdiv_lt_0_compat; nra|lra].
  - replace (1 / (x ^ 2 - 1)) with (- (1 / (1 - x ^ 2))); [ring|]. field. split; nra.
Qed.
Lemma outer_pos x : 1 < x -> 0 < outer_val x.
Proof.
  intros X. unfold outer_val. set (arg := sqrt ((x - 1) / (x + 1))). assert (A0 : 0 < arg) by (apply sqrt_lt_R0, Rdiv_lt_0_compat; lra).
  pose proof (atan_lt arg A0) as L. assert (S0 : 0 < sqrt (x ^ 2 - 1)) by (apply sqrt_lt_R0; nra).
  assert (R : arg / sqrt (x ^ 2 - 1) = / (x + 1)) by (unfold arg; replace (x ^ 2 - 1) with ((x - 1) * (x + 1)) by ring; apply root_ratio; lra).
  apply Rmult_lt_0_compat; [apply Rdiv_lt_0_compat; nra|].
  assert (2 / sqrt (x ^ 2 - 1) * atan arg < 1); [|lra].
  apply Rlt_trans with (2 / sqrt (x ^ 2 - 1) * arg); [apply Rmult_lt_compat_l; [apply Rdiv_lt_0_compat; lra|exact L]|].
  replace (2 / sqrt (x ^ 2 - 1) * arg) with (2 * (arg / sqrt (x ^ 2 - 1))) by (field; lra). rewrite R.
  apply Rmult_lt_reg_r with (x + 1); [lra|]. rewrite Rmult_assoc, Rinv_l by lra. lra.
Qed.
Lemma middle_pos : exists v, match inner_val (999 / 1000) with Some lo => Some ((lo + outer_val (1001 / 1000)) / 2) | None => None end = Some v /\ 0 < v.
Proof. destruct (inner_pos (999 / 1000)) as (v & E & P); [lra|lra|]. rewrite E. eexists. split; [reflexivity|]. pose proof (outer_pos (1001 / 1000)). lra. Qed.
