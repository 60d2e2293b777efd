(** C148, C149: radii of the correction for the mask; points drawn in a disc. *)
From Coq Require Import Reals Lra Lia.
From Verif.Base Require Import Py PyLemmas.
From Verif.Model Require Import RadBins.
From Verif.Spec Require Import RadBins.
From Verif.Proofs Require Import Radii RadBins.
From Coq Require Import List. Import ListNotations.
Local Open Scope R_scope.

(** The tabulated radii begin at or below 0.5 and the radius of richness 3, are [step] apart, and the last one is at least the radius
    of richness 300 and less than a step and 0.1 more. *)
Theorem C148_grid r0 beta step : 0 < r0 -> 0 <= beta -> 0 < step ->
  exists first last, nth_error (radbins r0 beta step) 0 = Some first /\ nth_error (radbins r0 beta step) (length (radbins r0 beta step) - 1) = Some last /\
  first <= 5 / 10 /\ first <= cluster_radius r0 beta 3 /\ cluster_radius r0 beta 300 <= last < cluster_radius r0 beta 300 + step + / 10 /\
  forall i a b, nth_error (radbins r0 beta step) i = Some a -> nth_error (radbins r0 beta step) (S i) = Some b -> b - a = step.
Proof.
  intros R0 B P. set (n := Z.to_nat (nradbins r0 beta step)).
  pose proof (min_le r0 beta) as [M1 M2]. pose proof (max_ge r0 beta) as [X1 X2]. pose proof (ceil_le ((maxrad r0 beta - minrad r0 beta) / step)) as [C1 C2]. assert (PW : Rpower (3/100) beta <= Rpower 3 beta) by (apply pow_le; lra).
  assert (MX : minrad r0 beta <= maxrad r0 beta) by (pose proof (Rmult_le_compat_l r0 _ _ ltac:(lra) PW); lra).
  assert (D0 : 0 <= (maxrad r0 beta - minrad r0 beta) / step) by (apply Rmult_le_pos; [lra|left; apply Rinv_0_lt_compat, P]).
  assert (N1 : (1 <= nradbins r0 beta step)%Z). { unfold nradbins. assert (0 <= ceilR ((maxrad r0 beta - minrad r0 beta) / step))%Z by (apply le_IZR; lra). lia. }
  assert (Nn : (1 <= n)%nat) by (unfold n; lia). assert (EN : INR (n - 1) = IZR (ceilR ((maxrad r0 beta - minrad r0 beta) / step))).
  { rewrite INR_IZR_INZ. f_equal. unfold n. rewrite Nat2Z.inj_sub by lia. rewrite Z2Nat.id by lia. unfold nradbins. lia. }
  exists (INR 0 * step + minrad r0 beta), (INR (n - 1) * step + minrad r0 beta). rewrite radbins_len. fold n.
  split; [apply radbins_nth; fold n; lia|]. split; [apply radbins_nth; fold n; lia|]. cbn [INR]. split; [lra|]. split; [unfold cluster_radius; lra|]. split.
  - unfold cluster_radius. replace (300 / 100) with 3 by lra. rewrite EN. assert (E : (maxrad r0 beta - minrad r0 beta) / step * step = maxrad r0 beta - minrad r0 beta) by (field; lra).
    pose proof (Rmult_le_compat_r step _ _ ltac:(lra) C1). pose proof (Rmult_lt_compat_r step _ _ P C2). lra.
  - intros i a b Ea Eb. assert (S i < n)%nat by (unfold n; rewrite <- radbins_len; apply nth_error_Some; congruence). rewrite radbins_nth in Ea, Eb by (fold n; lia). assert (a = INR i * step + minrad r0 beta) by congruence. assert (b = INR (S i) * step + minrad r0 beta) by congruence. subst. rewrite S_INR. lra.
Qed.
Print Assumptions C148_grid.
(** The radius of every cluster of richness between 3 and 300 lies between two neighbouring tabulated radii.  (Missing: other
    richnesses, see C148_rich_refuted.) *)
Theorem C148_covered_partial r0 beta step lambda : 0 < r0 -> 0 < beta -> 0 < step -> 3 <= lambda <= 300 -> bracketed (radbins r0 beta step) step (cluster_radius r0 beta lambda).
Proof.
  intros R0 B P [L1 L2]. set (x := cluster_radius r0 beta lambda). set (n := Z.to_nat (nradbins r0 beta step)).
  destruct (C148_grid r0 beta step R0 ltac:(lra) P) as (first & last & E1 & E2 & _ & F & L & _). rewrite radbins_len in E2. fold n in E2.
  assert (F' : first <= x). { unfold x, cluster_radius in *. assert (Rpower (3 / 100) beta <= Rpower (lambda / 100) beta) by (apply pow_le; lra). pose proof (Rmult_le_compat_l r0 _ _ ltac:(lra) H). lra. }
  assert (L' : x <= last). { unfold x, cluster_radius in *. assert (Rpower (lambda / 100) beta <= Rpower (300 / 100) beta) by (apply pow_le; lra). pose proof (Rmult_le_compat_l r0 _ _ ltac:(lra) H). lra. }
  destruct (nrad_pos r0 beta step R0 ltac:(lra) P) as [N|N].
  - assert (Nn : (2 <= n)%nat) by (unfold n; lia). rewrite radbins_nth in E1, E2 by (fold n; lia). assert (first = INR 0 * step + minrad r0 beta) by congruence. assert (last = INR (n - 1) * step + minrad r0 beta) by congruence. subst first last. cbn [INR] in F'.
    destruct (grid_bracket (minrad r0 beta) step (n - 1) x P ltac:(lra) L' ltac:(lia)) as (i & I & G). exists i, (INR i * step + minrad r0 beta), (INR (S i) * step + minrad r0 beta). split; [apply radbins_nth; fold n; lia|]. split; [apply radbins_nth; fold n; lia|]. split; [rewrite S_INR; lra|exact G].
  - exfalso. pose proof (min_le r0 beta) as [M _]. pose proof (max_ge r0 beta) as [X _]. assert (Rpower (3 / 100) beta < Rpower 3 beta) by (apply pow_lt; lra). pose proof (Rmult_lt_compat_l r0 _ _ R0 H). lra.
Qed.
Print Assumptions C148_covered_partial.
(** Finding: for every setting with increasing radii there are rich clusters whose radius is beyond all tabulated ones, where the fitted
    cubic is extrapolated; with the default r0 = 1, beta = 0.2 and step 0.1 those of richness 400 are. *)
Theorem C148_rich_refuted : (forall r0 beta step, 0 < r0 -> 0 < beta -> 0 < step -> exists lambda, 300 < lambda /\ forall x, In x (radbins r0 beta step) -> x < cluster_radius r0 beta lambda) /\
  (forall x, In x (radbins 1 (2 / 10) (1 / 10)) -> x < cluster_radius 1 (2 / 10) 400).
Proof.
  assert (B : forall r0 beta step x, 0 < r0 -> 0 <= beta -> 0 < step -> In x (radbins r0 beta step) -> exists last, nth_error (radbins r0 beta step) (length (radbins r0 beta step) - 1) = Some last /\ x <= last).
  { intros r0 beta step x R0 Hb P I. apply In_nth_error in I. destruct I as (i & E). assert (L : (i < length (radbins r0 beta step))%nat) by (apply nth_error_Some; congruence). rewrite radbins_len in *. rewrite radbins_nth in E by exact L. eexists. split; [apply radbins_nth; lia|]. assert (x = INR i * step + minrad r0 beta) by congruence. subst. assert (INR i <= INR (Z.to_nat (nradbins r0 beta step) - 1)) by (apply le_INR; lia). pose proof (Rmult_le_compat_r step _ _ ltac:(lra) H). lra. }
  split.
  - intros r0 beta step R0 Hb P. destruct (C148_grid r0 beta step R0 ltac:(lra) P) as (first & last & E1 & E2 & _ & F & L & _).
    set (t := (last + 1) / r0). assert (Pl : 0 < last + 1). { assert (0 < cluster_radius r0 beta 300) by (apply Rmult_lt_0_compat; [exact R0|apply pow_pos]). lra. }
    assert (Pt : 0 < t) by (apply Rdiv_lt_0_compat; lra). exists (100 * Rpower t (/ beta)).
    assert (EC : cluster_radius r0 beta (100 * Rpower t (/ beta)) = last + 1).
    { unfold cluster_radius. replace (100 * Rpower t (/ beta) / 100) with (Rpower t (/ beta)) by field. rewrite Rpower_mult, Rinv_l by lra. rewrite Rpower_1 by exact Pt. unfold t. field. lra. }
    split.
    + apply Rnot_le_lt. intros H. assert (cluster_radius r0 beta (100 * Rpower t (/ beta)) <= cluster_radius r0 beta 300); [|lra]. unfold cluster_radius. apply Rmult_le_compat_l; [lra|]. apply pow_le; [|lra|lra]. pose proof (pow_pos t (/ beta)). lra.
    + intros x I. destruct (B r0 beta step x R0 ltac:(lra) P I) as (last' & E & Lx). assert (last' = last) by congruence. subst. lra.
  - intros x I. destruct (B 1 (2/10) (1/10) x ltac:(lra) ltac:(lra) ltac:(lra) I) as (last & E & Lx). eapply Rle_lt_trans; [exact Lx|].
    assert (P5 : forall y, 0 < y -> Rpower (Rpower y (2/10)) 5 = y). { intros y Hy. rewrite Rpower_mult. replace (2 / 10 * 5) with 1 by lra. apply Rpower_1, Hy. }
    assert (P5n : forall y, 0 < y -> Rpower y 5 = y ^ 5). { intros y Hy. rewrite <- Rpower_pow by exact Hy. f_equal. cbn. lra. }
    assert (Bd : forall y a, 0 < y -> 0 < a -> y < a ^ 5 -> Rpower y (2/10) < a). { intros y a Hy Ha H. apply Rnot_le_lt. intros G. assert (Rpower a 5 <= Rpower (Rpower y (2/10)) 5) by (apply pow_le; lra). rewrite P5, P5n in H0 by assumption. lra. }
    assert (Bd' : forall y a, 0 < y -> 0 < a -> a ^ 5 < y -> a < Rpower y (2/10)). { intros y a Hy Ha H. apply Rnot_le_lt. intros G. assert (Rpower (Rpower y (2/10)) 5 <= Rpower a 5) by (apply pow_le; [apply pow_pos|lra|lra]). rewrite P5, P5n in H0 by assumption. lra. }
    assert (A1 : Rpower 3 (2/10) < 13/10) by (apply Bd; lra). assert (A2 : 12/10 < Rpower 3 (2/10)) by (apply Bd'; lra). assert (A3 : Rpower (3/100) (2/10) < 5/10) by (apply Bd; lra). assert (A4 : 4/10 < Rpower (3/100) (2/10)) by (apply Bd'; lra). assert (A5 : 13/10 < Rpower 4 (2/10)) by (apply Bd'; lra).
    assert (Mx : maxrad 1 (2/10) = 13/10). { unfold maxrad. replace (300/100) with 3 by lra. pose proof (ceil_le (10 * 1 * Rpower 3 (2/10))). assert (ceilR (10 * 1 * Rpower 3 (2/10)) = 13%Z) as -> by (assert (12 < ceilR (10 * 1 * Rpower 3 (2/10)))%Z by (apply lt_IZR; lra); assert (ceilR (10 * 1 * Rpower 3 (2/10)) < 14)%Z by (apply lt_IZR; lra); lia). lra. }
    assert (Mn : minrad 1 (2/10) = 4/10). { unfold minrad. pose proof (floor_le (10 * 1 * Rpower (3/100) (2/10))). assert (floorR (10 * 1 * Rpower (3/100) (2/10)) = 4%Z) as -> by (assert (3 < floorR (10 * 1 * Rpower (3/100) (2/10)))%Z by (apply lt_IZR; lra); assert (floorR (10 * 1 * Rpower (3/100) (2/10)) < 5)%Z by (apply lt_IZR; lra); lia). rewrite Rmin_left; lra. }
    assert (Nr : nradbins 1 (2/10) (1/10) = 10%Z). { unfold nradbins. rewrite Mx, Mn. replace ((13/10 - 4/10) / (1/10)) with 9 by field. pose proof (ceil_le 9). assert (8 < ceilR 9)%Z by (apply lt_IZR; lra). assert (ceilR 9 < 10)%Z by (apply lt_IZR; lra). lia. }
    rewrite radbins_len, Nr in E. rewrite radbins_nth in E by (rewrite Nr; cbn; lia). rewrite Mn in E. assert (last = INR (Z.to_nat 10 - 1) * (1/10) + 4/10) by congruence. subst. change (Z.to_nat 10 - 1)%nat with 9%nat. unfold cluster_radius. replace (400 / 100) with 4 by lra. cbn [INR]. lra.
Qed.
Print Assumptions C148_rich_refuted.
(** Points of the mask sample are drawn uniformly in the disc: inside it, and within any smaller radius for random numbers up to the
    ratio of the areas. *)
Theorem C149_uniform annulus u v rho : 0 < annulus -> 0 <= u < 1 -> 0 <= rho <= annulus ->
  let '(x, y) := uniform_point annulus u v in Rsqr x + Rsqr y < Rsqr annulus /\ (Rsqr x + Rsqr y <= Rsqr rho <-> u <= (PI * Rsqr rho) / (PI * Rsqr annulus)).
Proof.
  intros A [U1 U2] R. unfold uniform_point, disc_point. rewrite pow2_sum, Rsqr_mult, Rsqr_sqrt by exact U1. assert (PA : 0 < Rsqr annulus) by (apply Rsqr_pos_lt; lra).
  split; [pose proof (Rmult_lt_compat_l _ _ _ PA U2); lra|]. pose proof PI_RGT_0. replace (PI * Rsqr rho / (PI * Rsqr annulus)) with (Rsqr rho / Rsqr annulus) by (field; split; lra). split; intros H'.
  - apply Rmult_le_reg_l with (Rsqr annulus); [exact PA|]. replace (Rsqr annulus * (Rsqr rho / Rsqr annulus)) with (Rsqr rho) by (field; lra). exact H'.
  - pose proof (Rmult_le_compat_l _ _ _ (Rlt_le _ _ PA) H') as G. replace (Rsqr annulus * (Rsqr rho / Rsqr annulus)) with (Rsqr rho) in G by (field; lra). exact G.
Qed.
Print Assumptions C149_uniform.
(** A random centre is one centre, of probability 1, that is no galaxy; it lies within the cluster's radius on the flat sky, and within a
    smaller one for random numbers up to the ratio of the areas.  (Missing: that the position is one on the sky.) *)
Theorem C149_centre_partial rlambda scale ra dec u v rho : 0 < rlambda -> 0 < scale -> -90 < dec < 90 -> 0 <= u < 1 -> 0 <= rho <= rlambda ->
  let c := random_centre rlambda scale ra dec u v in
  c_ngood c = 1%nat /\ c_index c = (-1)%Z /\ c_maxind c = (-1)%Z /\ c_pcen c = 1 /\ c_qcen c = 1 /\ c_psat c = 0 /\ c_pfg c = 0 /\ c_pc c = 1 /\
  sky_distance2 ra dec (c_ra c) (c_dec c) * Rsqr scale < Rsqr rlambda /\
  (sky_distance2 ra dec (c_ra c) (c_dec c) * Rsqr scale <= Rsqr rho <-> u <= (PI * Rsqr rho) / (PI * Rsqr rlambda)).
Proof.
  intros A P [D1 D2] [U1 U2] R c. repeat (split; [reflexivity|]).
  assert (CD : 0 < cos (dec * (PI / 180))). { pose proof PI_RGT_0. apply cos_gt_0; nra. }
  assert (E : sky_distance2 ra dec (c_ra c) (c_dec c) * Rsqr scale = Rsqr rlambda * u).
  { unfold sky_distance2. cbn [c c_ra c_dec random_centre]. unfold radians. set (k := cos (dec * (PI / 180))) in *. set (r := rlambda * sqrt u). set (phi := 2 * PI * v).
    replace ((ra + r * cos phi / scale / k - ra) * k) with (r * cos phi / scale) by (field; lra). replace (dec + r * sin phi / scale - dec) with (r * sin phi / scale) by ring.
    replace ((Rsqr (r * cos phi / scale) + Rsqr (r * sin phi / scale)) * Rsqr scale) with (Rsqr (r * cos phi) + Rsqr (r * sin phi)) by (unfold Rsqr; field; lra). rewrite pow2_sum. unfold r. rewrite Rsqr_mult, Rsqr_sqrt by exact U1. reflexivity. }
  rewrite E. assert (PA : 0 < Rsqr rlambda) by (apply Rsqr_pos_lt; lra). split; [pose proof (Rmult_lt_compat_l _ _ _ PA U2); lra|]. pose proof PI_RGT_0. replace (PI * Rsqr rho / (PI * Rsqr rlambda)) with (Rsqr rho / Rsqr rlambda) by (field; split; lra). split; intros H'.
  - apply Rmult_le_reg_l with (Rsqr rlambda); [exact PA|]. replace (Rsqr rlambda * (Rsqr rho / Rsqr rlambda)) with (Rsqr rho) by (field; lra). exact H'.
  - pose proof (Rmult_le_compat_l _ _ _ (Rlt_le _ _ PA) H') as G. replace (Rsqr rlambda * (Rsqr rho / Rsqr rlambda)) with (Rsqr rho) in G by (field; lra). exact G.
Qed.
Print Assumptions C149_centre_partial.
(** Finding: a random centre can lie beyond the pole, and at a negative right ascension: for a cluster whose radius reaches the
    pole, respectively right ascension 0, some random numbers give such positions. *)
Theorem C149_off_sky_refuted rlambda scale : 0 < rlambda -> 0 < scale ->
  (forall ra dec, dec < 90 -> 90 < dec + rlambda / (2 * scale) -> exists u v, 0 <= u < 1 /\ 0 <= v < 1 /\ 90 < c_dec (random_centre rlambda scale ra dec u v)) /\
  (forall dec, -90 < dec < 90 -> exists u v, 0 <= u < 1 /\ 0 <= v < 1 /\ c_ra (random_centre rlambda scale 0 dec u v) < 0).
Proof.
  intros A P. assert (S4 : sqrt (/ 4) = / 2). { replace (/ 4) with (Rsqr (/ 2)) by (unfold Rsqr; lra). apply sqrt_Rsqr. lra. } split.
  - intros ra dec D B. exists (/ 4), (/ 4). split; [lra|]. split; [lra|]. cbn [c_dec random_centre]. rewrite S4. replace (2 * PI * / 4) with (PI / 2) by field. rewrite sin_PI2. replace (rlambda * / 2 * 1 / scale) with (rlambda / (2 * scale)) by (field; lra). exact B.
  - intros dec D. exists (/ 4), (/ 2). split; [lra|]. split; [lra|]. cbn [c_ra random_centre]. rewrite S4. replace (2 * PI * / 2) with PI by field. rewrite cos_PI.
    assert (CD : 0 < cos (radians dec)). { unfold radians. pose proof PI_RGT_0. apply cos_gt_0; nra. }
    assert (0 < rlambda / (2 * scale * cos (radians dec))) by (apply Rdiv_lt_0_compat; [exact A|apply Rmult_lt_0_compat; lra]). replace (0 + rlambda * / 2 * -1 / scale / cos (radians dec)) with (- (rlambda / (2 * scale * cos (radians dec)))) by (field; split; lra). lra.
Qed.
Print Assumptions C149_off_sky_refuted.
(** Finding: the check that the centre is a free galaxy, run after a random centre was chosen, looks at the last neighbour of the
    cluster, whichever galaxy that is: a cluster rich enough is rejected exactly if that one is taken. *)
Theorem C149_last_neighbour_refuted lambda minlambda cut pfree p rlambda scale ra dec u v : minlambda <= lambda ->
  centre_rejected lambda minlambda cut (pfree ++ [p]) (c_maxind (random_centre rlambda scale ra dec u v)) = Ok (if Rlt_dec p cut then true else false).
Proof.
  intros L. cbn [c_maxind random_centre]. assert (E : py_index (pfree ++ [p]) (-1) = Ok p).
  { unfold py_index. rewrite app_length. cbn [length]. change (-1 <? 0)%Z with true. cbv iota zeta. replace (-1 + Z.of_nat (length pfree + 1))%Z with (Z.of_nat (length pfree)) by lia.
    destruct (Z.ltb_spec (Z.of_nat (length pfree)) 0); [lia|]. destruct (Z.leb_spec (Z.of_nat (length pfree + 1)) (Z.of_nat (length pfree))); [lia|]. cbn [orb]. rewrite Nat2Z.id, nth_error_app2, Nat.sub_diag by lia. reflexivity. }
  unfold centre_rejected. rewrite E. cbn [bind]. destruct (Rlt_dec lambda minlambda); [lra|reflexivity].
Qed.
Print Assumptions C149_last_neighbour_refuted.
(** a cluster of radius 1 Mpc at a scale of 10 Mpc per degree: half the radius to the north *)
Example C149_example : let c := random_centre 1 10 30 0 (/ 4) (/ 4) in c_ra c = 30 /\ c_dec c = 5 / 100 /\ -90 < 0 < 90.
Proof.
  cbn [c_ra c_dec random_centre]. assert (S4 : sqrt (/ 4) = / 2). { replace (/ 4) with (Rsqr (/ 2)) by (unfold Rsqr; lra). apply sqrt_Rsqr. lra. }
  rewrite S4. replace (2 * PI * / 4) with (PI / 2) by field. rewrite cos_PI2, sin_PI2. split; [|split; lra]. unfold Rdiv. rewrite Rmult_0_r, !Rmult_0_l. lra.
Qed.
Example C148_example : bracketed (radbins 1 (2 / 10) (1 / 10)) (1 / 10) (cluster_radius 1 (2 / 10) 20).
Proof. apply C148_covered_partial; lra. Qed.
