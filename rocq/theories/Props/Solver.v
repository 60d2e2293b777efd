(** C16, C17: the richness solver. *)
From Coq Require Import Reals Lra.
From Verif.Base Require Import Py PyLemmas.
From Verif.Model Require Import BkgGen Solver.
From Verif.Spec Require Import Solver.
From Verif.Proofs Require Import BkgGen Solver.
Local Open Scope R_scope.

(** ** C16.  The solver terminates for every positive tolerance and every input, and the result does not depend on
    how long it is allowed to run. *)
Theorem C16_terminates : forall tol e gs, 0 < tol ->
  exists N r, forall fuel, (N <= fuel)%nat -> solve fuel tol e gs = Some r.
Proof. intros tol e gs H. exact (solver_terminates tol e gs H). Qed.
Print Assumptions C16_terminates.

(** The result is -1 or a richness in [1, 2000); on -1 the radius is -1 as well, otherwise it is the radius of the
    richness. *)
Theorem C16_range : forall fuel tol e gs r, solve fuel tol e gs = Some r ->
  (o_lam r = -1 /\ o_rlam r = -1) \/ (1 <= o_lam r < 2000 /\ o_rlam r = cluster_radius e (o_lam r)).
Proof.
  intros fuel tol e gs r H. destruct (solve_inv _ _ _ _ _ H) as (n & s & _ & -> & Hb & _).
  destruct Hb as [B1 [B2 B3]]. unfold ends in *. cbn [fst snd] in *.
  unfold solve_end. cbv zeta. destruct (Rltb _ _) eqn:E; cbn [o_lam o_rlam]; [left; lra|right].
  apply Rltb_false in E. split; [lra|reflexivity].
Qed.
Print Assumptions C16_range.

(** With the guard on the low end: the returned richness is the middle of an interval no wider than twice the
    tolerance whose ends lie on opposite sides of the richness equation (or are the ends of the search range). *)
Theorem C16_bracket_partial : forall fuel tol e gs r, low_end_ok (richness_rhs e gs) -> solve fuel tol e gs = Some r ->
  exists lo hi, 1/2 <= lo < hi /\ hi <= 2000 /\ hi - lo <= 2 * tol /\
    (lo = 1/2 \/ lo < richness_rhs e gs lo) /\ (hi = 2000 \/ richness_rhs e gs hi <= hi) /\
    o_lam r = (if Rlt_dec ((lo + hi) / 2) 1 then -1 else (lo + hi) / 2).
Proof.
  intros fuel tol e gs r Hg H. destruct (solve_inv _ _ _ _ _ H) as (n & s & _ & -> & Hb & Hw & _ & Hi & _).
  assert (Hs : bsign (richness_rhs e gs) (ends s)).
  { rewrite Hi. apply biter_sign; [exact Hg|unfold binv; cbn [fst snd]; lra|]. split; left; reflexivity. }
  destruct Hb as [B1 [B2 B3]]. destruct Hs as [S1 S2]. unfold ends in *. cbn [fst snd] in *.
  exists (s_lo s), (s_hi s). repeat (split; [first [assumption|split; assumption]|]).
  unfold solve_end, Rltb. cbv zeta. destruct (Rlt_dec _ 1); reflexivity.
Qed.
Print Assumptions C16_bracket_partial.

(** Hence a single crossing x* of the equation is found to within the tolerance. *)
Theorem C16_single_root_partial : forall fuel tol e gs r x, low_end_ok (richness_rhs e gs) ->
  solve fuel tol e gs = Some r -> 1/2 < x < 2000 ->
  (forall y, 1/2 < y < x -> y < richness_rhs e gs y) -> (forall y, x < y < 2000 -> richness_rhs e gs y < y) ->
  (Rabs (o_lam r - x) <= tol \/ (o_lam r = -1 /\ x < 1 + tol)).
Proof.
  intros fuel tol e gs r x Hg H Hx Hlo Hhi.
  destruct (C16_bracket_partial fuel tol e gs r Hg H) as (lo & hi & [L1 L2] & L3 & L4 & S1 & S2 & Hr).
  assert (A : lo <= x).
  { destruct (Rle_lt_dec lo x) as [h|h]; [exact h|]. destruct S1 as [->|S1]; [lra|].
    specialize (Hhi lo ltac:(lra)). lra. }
  assert (B : x <= hi).
  { destruct (Rle_lt_dec x hi) as [h|h]; [exact h|]. destruct S2 as [->|S2]; [lra|].
    specialize (Hlo hi ltac:(lra)). lra. }
  destruct (Rlt_dec ((lo + hi) / 2) 1) as [h|h]; rewrite Hr.
  - right. split; [reflexivity|]. lra.
  - left. apply Rabs_le. lra.
Qed.
Print Assumptions C16_single_root_partial.

(** ** C17.  Every membership probability returned is in [0,1] and every weight is between 0 and the input weight. *)
Theorem C17_bounds : forall fuel tol e gs r, Forall gal_ok gs -> erf_ok e -> solve fuel tol e gs = Some r ->
  List.length (o_arr r) = List.length gs /\
  forall i g a, nth_error gs i = Some g -> nth_error (o_arr r) i = Some a ->
    0 <= a_p a <= 1 /\ 0 <= a_wt a <= g_w g /\ 0 <= a_th a <= 1.
Proof.
  intros fuel tol e gs r Hg He H. destruct (solve_inv _ _ _ _ _ H) as (n & s & Hs & -> & Hb & _).
  rewrite solve_end_arr. destruct Hb as [B1 [B2 B3]]. unfold ends in *. cbn [fst snd] in *.
  pose proof (weights_arr_ok e false ((s_lo s + s_hi s) / 2) gs (s_arr s) ltac:(lra) Hg He) as Hok.
  destruct Hok as [H1 H2]; [rewrite Hs; apply siter_arr_ok; assumption|]. split; [exact H1|exact H2].
Qed.
Print Assumptions C17_bounds.

(** The probabilities belong to a richness within the tolerance of the one found; in particular a galaxy with zero
    filter value or infinite background gets 0. *)
Theorem C17_formula : forall fuel tol e gs r, tol < 999 -> solve fuel tol e gs = Some r ->
  exists lam lam', 1/2 < lam < 2000 /\ Rabs (lam - lam') <= tol /\ o_lam r = (if Rlt_dec lam' 1 then -1 else lam') /\
  forall i g a, nth_error gs i = Some g -> nth_error (o_arr r) i = Some a ->
    a_p a = prob e lam g /\
    (0 < e_rsig e -> a_wt a = prob e lam g * g_w g * radial e lam g /\ a_th a = radial e lam' g) /\
    (e_rsig e <= 0 -> a_wt a = (if Rlt_dec (g_r g) (cluster_radius e lam') then prob e lam g * g_w g * radial e lam g else 0)).
Proof.
  intros fuel tol e gs r Ht H. destruct (solve_inv _ _ _ _ _ H) as (n & s & Hs & -> & Hb & Hw & _ & _ & _).
  destruct n as [|n].
  { exfalso. rewrite Hs in Hw. cbn [siter solve_init s_lo s_hi] in Hw. lra. }
  set (t := siter n e gs (solve_init gs)).
  assert (Hgt : sgood e gs t) by apply (siter_refines n e gs _ (init_good e gs)).
  assert (Hbt : binv (ends t)).
  { destruct (siter_refines n e gs _ (init_good e gs)) as [_ Hr]. fold t in Hr. rewrite Hr. apply biter_inv, init_binv. }
  destruct (step_refines e gs t Hgt) as (_ & _ & arr & Hla & Harr).
  exists ((s_hi t + s_lo t) / 2), ((s_lo s + s_hi s) / 2).
  destruct Hbt as [B1 [B2 B3]]. unfold ends in *. cbn [fst snd] in *.
  split; [lra|]. split; [rewrite Hs in *; apply (last_mid e gs n tol Hw)|].
  split.
  { unfold solve_end, Rltb. cbv zeta. destruct (Rlt_dec _ _); reflexivity. }
  intros i g a Hi Ha. rewrite solve_end_arr in Ha.
  assert (Hsa : s_arr s = nfw_weights e true ((s_hi t + s_lo t) / 2) gs arr) by (rewrite Hs, siter_S; exact Harr).
  rewrite weights_nth in Ha by (rewrite Hsa; apply weights_length, Hla).
  rewrite Hi, Hsa, weights_nth, Hi in Ha by exact Hla. destruct (nth_error arr i) as [a0|]; [|discriminate].
  apply (f_equal (fun z => match z with Some v => v | None => a end)) in Ha. cbv beta iota in Ha. subst a.
  set (lam := (s_hi t + s_lo t) / 2). set (lam' := (s_lo s + s_hi s) / 2).
  pose proof (weights1_p e lam g a0) as Wp. pose proof (weights1_wt e lam g a0) as Ww.
  set (b := weights1 e true lam (g, a0)) in *. clearbody b.
  change (cluster_radius e lam') with (radius e lam'). rewrite !radial_eq in *. unfold weights1. destruct (Rltb 0 (e_rsig e)) eqn:Er.
  - apply Rltb_iff in Er. cbn [a_p a_wt a_th]. split; [exact Wp|]. split; [intros _|lra].
    split; [|reflexivity]. exact Ww.
  - apply Rltb_false in Er. destruct (Rlt_dec (g_r g) (radius e lam')) as [h|h].
    + assert (Hq : Rltb (g_r g) (radius e lam') = true) by (apply Rltb_iff, h). rewrite Hq. cbn [a_p a_wt a_th].
      split; [exact Wp|]. split; [lra|]. intros _. exact Ww.
    + assert (Hq : Rltb (g_r g) (radius e lam') = false) by (apply Rltb_false; lra). rewrite Hq. cbn [a_p a_wt a_th].
      split; [exact Wp|]. split; [lra|]. intros _. reflexivity.
Qed.
Print Assumptions C17_formula.

Theorem C17_zero : forall fuel tol e gs r, tol < 999 -> solve fuel tol e gs = Some r ->
  forall i g a, nth_error gs i = Some g -> nth_error (o_arr r) i = Some a ->
  g_u g = 0 \/ g_b g = Binf -> a_p a = 0 /\ a_wt a = 0.
Proof.
  intros fuel tol e gs r Ht H i g a Hi Ha Hz.
  destruct (C17_formula fuel tol e gs r Ht H) as (lam & lam' & _ & _ & _ & F).
  destruct (F i g a Hi Ha) as (Hp & Hs & Hh).
  assert (Hp0 : prob e lam g = 0).
  { rewrite prob_eq. unfold pval. destruct Hz as [Hz|Hz]; rewrite Hz; [|reflexivity]. destruct (g_b g); [reflexivity|].
    destruct (Req_EM_T _ 0); [reflexivity|]. unfold Rdiv. ring. }
  split; [congruence|]. destruct (Rlt_le_dec 0 (e_rsig e)) as [h|h].
  - destruct (Hs h) as [-> _]. rewrite Hp0. ring.
  - rewrite (Hh h). destruct (Rlt_dec _ _); [rewrite Hp0; ring|reflexivity].
Qed.
Print Assumptions C17_zero.

(** Without the guard the claim is false: the richness equation of twelve equal galaxies (p = x/(x+10), weight
    0.925) crosses once, at 1.1, but the reset of out < 1 to 0.9 flips the sign test at 0.988 and every run ends
    above 1.4. *)
Theorem C16_low_end_refuted : exists e gs, Forall gal_ok gs /\
  (forall y, 0 < y < 11/10 -> y < richness_rhs e gs y) /\ (forall y, 11/10 < y -> richness_rhs e gs y < y) /\
  forall fuel r, solve fuel (1/100) e gs = Some r -> 14/10 < o_lam r.
Proof.
  exists low_env, low_gals. split.
  - apply Forall_forall. intros g Hg. apply repeat_spec in Hg. subst g. unfold gal_ok, low_gal. cbn [g_u g_w g_b].
    pose proof (nfwnorm_pos 1) as Hn. split; [apply Rlt_le, Rinv_0_lt_compat, Hn|]. split; [lra|]. intros b [= <-]. lra.
  - split; [exact low_below|]. split; [exact low_above|exact low_result].
Qed.
Print Assumptions C16_low_end_refuted.

(** a case that meets the guard of C16_bracket_partial: no galaxies, no mask correction *)
Example C16_guard_met : low_end_ok (richness_rhs low_env []).
Proof.
  intros x Hx. left. unfold richness_rhs. cbn [map Rsum]. rewrite missing_eq. unfold cval. cbn [low_env e_c0 e_c1 e_c2 e_c3].
  rewrite low_radius, Rmax_left by lra. lra.
Qed.
(** ... and one with a cluster: forty galaxies with p = x/(x+10) and weight 0.925, root at 27 *)
Example C16_guard_met_cluster : low_end_ok (fun x => 37 * (x / (x + 10))).
Proof.
  intros x Hx. right. apply (Rmult_le_reg_r (x + 10)); [lra|].
  replace (37 * (x / (x + 10)) * (x + 10)) with (37 * x) by (field; lra). lra.
Qed.

(** theta_r returned in the hard-cut mode is not the radial weight: it is 1 for every galaxy inside the radius of
    richness 1000.25 (the first trial), even when it is outside the final radius and its weight is 0. *)
Theorem C17_theta_hard_refuted : forall fuel tol e gs r, e_rsig e <= 0 -> tol < 999 -> solve fuel tol e gs = Some r ->
  forall i g a, nth_error gs i = Some g -> nth_error (o_arr r) i = Some a ->
  g_r g < cluster_radius e (4001/4 / 1) -> a_th a = 1.
Proof.
  intros fuel tol e gs r Hr Ht H i g a Hi Ha Hg. apply (hard_theta fuel tol e gs r Hr Ht H i g a Hi Ha).
  replace ((2000 + 1/2) / 2) with (4001/4 / 1) by lra. exact Hg.
Qed.
Print Assumptions C17_theta_hard_refuted.
