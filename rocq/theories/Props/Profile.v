(** C137: the radial and luminosity filters. *)
From Coq Require Import Reals Lra.
From Verif.Base Require Import Py PyLemmas.
From Verif.Model Require Import Profile.
From Verif.Proofs Require Import Profile.
Local Open Scope R_scope.

(** C137: with a core smaller than the scale radius the profile is a positive number at every radius below 10 Mpc. *)
Theorem C137_positive_partial : forall rscale corer x, 0 < corer < rscale -> 0 <= x < 10 ->
  exists v, nfw_pdf rscale corer false x = Some v /\ 0 < v.
Proof.
  intros rscale corer x Hc Hx. unfold nfw_pdf. assert (I : 0 < / rscale) by (apply Rinv_0_lt_compat; lra).
  assert (C : 0 < corer / rscale < 1). { split; [apply Rdiv_lt_0_compat; lra|]. apply Rmult_lt_reg_r with rscale; [lra|]. unfold Rdiv. rewrite Rmult_assoc, Rinv_l by lra. lra. }
  assert (L : x / rscale < 10 / rscale) by (apply Rmult_lt_compat_r; lra). assert (X : 0 <= x / rscale) by (apply Rmult_le_pos; lra).
  destruct middle_pos as (vm & Em & Pm).
  destruct (Rlt_dec (x / rscale) (corer / rscale)).
  - destruct (Rlt_dec (x / rscale) (1001 / 1000)); [|lra]. destruct (Rlt_dec (999 / 1000) (x / rscale)); [rewrite Em; eauto|].
    destruct (inner_pos (corer / rscale)) as (v & E & P); [lra|lra|]. rewrite E. eauto.
  - destruct (Rle_dec (x / rscale) (999 / 1000)).
    + destruct (inner_pos (x / rscale)) as (v & E & P); [lra|lra|]. rewrite E. eauto.
    + destruct (Rlt_dec (x / rscale) (1001 / 1000)); [rewrite Em; eauto|].
      destruct (Rlt_dec (x / rscale) (10 / rscale)); [|lra]. eexists. split; [reflexivity|]. apply outer_pos. lra.
Qed.
Print Assumptions C137_positive_partial.
(** Finding: a core not smaller than the scale radius gives no number in the core. *)
Theorem C137_positive_refuted : forall rscale corer x, 0 < rscale <= corer -> 0 <= x <= 999 / 1000 * rscale -> nfw_pdf rscale corer false x = None.
Proof.
  intros rscale corer x Hc Hx. unfold nfw_pdf. assert (I : 0 < / rscale) by (apply Rinv_0_lt_compat; lra).
  assert (X : x / rscale <= 999 / 1000). { apply Rmult_le_reg_r with rscale; [lra|]. unfold Rdiv at 1. rewrite Rmult_assoc, Rinv_l by lra. lra. }
  assert (C : 1 <= corer / rscale). { apply Rmult_le_reg_r with rscale; [lra|]. unfold Rdiv. rewrite Rmult_assoc, Rinv_l by lra. lra. }
  destruct (Rlt_dec (x / rscale) (corer / rscale)); [|lra]. destruct (Rlt_dec (x / rscale) (1001 / 1000)); [|lra]. destruct (Rlt_dec (999 / 1000) (x / rscale)); [lra|].
  unfold inner_val. destruct (Rlt_dec (corer / rscale) 1); [lra|reflexivity].
Qed.
Print Assumptions C137_positive_refuted.
(** C137: it is flat in the core, with the value it has at the edge of the core. *)
Theorem C137_core : forall rscale corer x, 0 < corer -> corer <= 999 / 1000 * rscale -> 0 <= x <= corer -> nfw_pdf rscale corer false x = nfw_pdf rscale corer false corer.
Proof.
  intros rscale corer x H0 H1 Hx. unfold nfw_pdf. assert (I : 0 < / rscale) by (apply Rinv_0_lt_compat; lra).
  assert (C : corer / rscale <= 999 / 1000). { apply Rmult_le_reg_r with rscale; [lra|]. unfold Rdiv at 1. rewrite Rmult_assoc, Rinv_l by lra. lra. }
  assert (L : x / rscale <= corer / rscale) by (apply Rmult_le_compat_r; lra).
  destruct (Rlt_dec (corer / rscale) (corer / rscale)); [lra|]. destruct (Rle_dec (corer / rscale) (999 / 1000)); [|lra].
  destruct (Rlt_dec (x / rscale) (corer / rscale)).
  - destruct (Rlt_dec (x / rscale) (1001 / 1000)); [|lra]. destruct (Rlt_dec (999 / 1000) (x / rscale)); [lra|reflexivity].
  - replace (x / rscale) with (corer / rscale) by lra. destruct (Rle_dec (corer / rscale) (999 / 1000)); [reflexivity|lra].
Qed.
Print Assumptions C137_core.
(** C137: it vanishes from 10 Mpc on. *)
Theorem C137_far : forall rscale corer x, 0 < corer <= 10 -> 0 < rscale <= 9 -> 10 <= x -> nfw_pdf rscale corer false x = Some 0.
Proof.
  intros rscale corer x Hc Hr Hx. unfold nfw_pdf. assert (I : 0 < / rscale) by (apply Rinv_0_lt_compat; lra).
  assert (L : 10 / rscale <= x / rscale) by (apply Rmult_le_compat_r; lra). assert (C : corer / rscale <= 10 / rscale) by (apply Rmult_le_compat_r; lra).
  assert (T : 10 / 9 <= 10 / rscale). { unfold Rdiv. apply Rmult_le_compat_l; [lra|]. apply Rinv_le_contravar; lra. }
  destruct (Rlt_dec (x / rscale) (corer / rscale)); [lra|]. destruct (Rle_dec (x / rscale) (999 / 1000)); [lra|]. destruct (Rlt_dec (x / rscale) (1001 / 1000)); [lra|].
  destruct (Rlt_dec (x / rscale) (10 / rscale)); [lra|reflexivity].
Qed.
Print Assumptions C137_far.
(** C137: away from the core it is the projected NFW profile, in its two forms inside and outside of the scale radius. *)
Theorem C137_form : forall rscale corer x, 0 < corer < rscale -> corer <= x < 10 ->
  (x <= 999 / 1000 * rscale -> let u := x / rscale in let a := sqrt ((1 - u) / (1 + u)) in
     nfw_pdf rscale corer false x = Some (1 / (u ^ 2 - 1) * (1 - 2 / sqrt (1 - u ^ 2) * (ln ((1 + a) / (1 - a)) / 2)))) /\
  (1001 / 1000 * rscale <= x -> let u := x / rscale in let a := sqrt ((u - 1) / (u + 1)) in
     nfw_pdf rscale corer false x = Some (1 / (u ^ 2 - 1) * (1 - 2 / sqrt (u ^ 2 - 1) * atan a))).
Proof.
  intros rscale corer x Hc Hx. assert (I : 0 < / rscale) by (apply Rinv_0_lt_compat; lra). assert (L : corer / rscale <= x / rscale) by (apply Rmult_le_compat_r; lra).
  split; intros Hb u a; unfold nfw_pdf; fold u; fold u in L.
  - assert (U : u <= 999 / 1000). { unfold u. apply Rmult_le_reg_r with rscale; [lra|]. unfold Rdiv at 1. rewrite Rmult_assoc, Rinv_l by lra. lra. }
    destruct (Rlt_dec u (corer / rscale)); [lra|]. destruct (Rle_dec u (999 / 1000)); [|lra]. unfold inner_val. destruct (Rlt_dec u 1); [|lra]. fold a. do 3 f_equal. unfold Rdiv. lra.
  - assert (U : 1001 / 1000 <= u). { unfold u. apply Rmult_le_reg_r with rscale; [lra|]. unfold Rdiv at 2. rewrite Rmult_assoc, Rinv_l by lra. lra. }
    assert (V : u < 10 / rscale) by (apply Rmult_lt_compat_r; lra).
    destruct (Rlt_dec u (corer / rscale)); [lra|]. destruct (Rle_dec u (999 / 1000)); [lra|]. destruct (Rlt_dec u (1001 / 1000)); [lra|]. destruct (Rlt_dec u (10 / rscale)); [reflexivity|lra].
Qed.
Print Assumptions C137_form.
(** C137: with the factor for the circumference it is 2 pi x times that. *)
Theorem C137_radfactor : forall rscale corer x v, nfw_pdf rscale corer false x = Some v -> nfw_pdf rscale corer true x = Some (v * (2 * PI * x)).
Proof. intros rscale corer x v. unfold nfw_pdf. match goal with |- context [match ?s with Some _ => _ | None => _ end = _ -> _] => destruct s end; congruence. Qed.
Print Assumptions C137_radfactor.
(** C137: the luminosity filter is positive; and so the filter of every galaxy in the richness is a number that is not negative. *)
Theorem C137_schechter : forall alpha mstar x, 0 < schechter alpha mstar x.
Proof. intros. unfold schechter, Rpower. apply Rmult_lt_0_compat; apply exp_pos. Qed.
Print Assumptions C137_schechter.
Theorem C137_filter : forall norm alpha mstar rho r m, 0 < norm -> 0 <= rho -> 0 <= r -> exists u, ucount norm alpha mstar rho r m = Some u /\ 0 <= u.
Proof.
  intros norm alpha mstar rho r m Hn Hr0 Hr. unfold ucount. pose proof PI_RGT_0.
  assert (E : exists v, nfw_pdf (15 / 100) (1 / 10) false r = Some v /\ 0 <= v).
  { destruct (Rlt_dec r 10); [destruct (C137_positive_partial (15 / 100) (1 / 10) r) as (v & E & P); [lra|lra|exists v; split; [exact E|lra]]|]. exists 0. split; [apply C137_far; lra|lra]. }
  destruct E as (v & E & P). rewrite E. eexists. split; [reflexivity|]. pose proof (C137_schechter alpha mstar m).
  assert (0 <= schechter alpha mstar m / norm) by (left; apply Rdiv_lt_0_compat; lra). assert (0 <= 2 * PI * r) by (apply Rmult_le_pos; lra).
  apply Rmult_le_pos; [|exact Hr0]. apply Rmult_le_pos; [|assumption]. apply Rmult_le_pos; assumption.
Qed.
Print Assumptions C137_filter.
(** the configured scale and core *)
Example C137_ex : exists v, nfw_pdf (15 / 100) (1 / 10) false (5 / 100) = Some v /\ nfw_pdf (15 / 100) (1 / 10) false (1 / 10) = Some v /\ 0 < v.
Proof.
  destruct (C137_positive_partial (15 / 100) (1 / 10) (1 / 10)) as (v & E & P); [lra|lra|]. exists v. split; [|split; assumption].
  rewrite <- E. apply C137_core; lra.
Qed.
(** The luminosity filter is a Schechter function: for a luminosity of L, in units of that of the characteristic magnitude, it is L to the
    power alpha + 1 times exp (- L). *)
Theorem C137_luminosity : forall alpha mstar L, 0 < L -> schechter alpha mstar (mstar - 5 / 2 * (ln L / ln 10)) = Rpower L (alpha + 1) * exp (- L).
Proof.
  intros alpha mstar L P. assert (T : ln 10 <> 0). { assert (0 < ln 10) by (rewrite <- ln_1; apply ln_increasing; lra). lra. }
  unfold schechter, Rpower. f_equal; f_equal.
  - field. exact T.
  - f_equal. replace (4 / 10 * (mstar - (mstar - 5 / 2 * (ln L / ln 10))) * ln 10) with (ln L) by (field; exact T). apply exp_ln, P.
Qed.
Print Assumptions C137_luminosity.
