(** C118: the fit of a depth. *)
From Coq Require Import Reals Lra QArith Qround Qreals.
From Verif.Base Require Import Py PyLemmas.
From Verif.Model Require Import BkgGen Maskgals Depth ColFit DepthFit.
From Verif.Spec Require Import Depth.
From Verif.Proofs Require Import Maskgals RedCal Radii Depth ColFit.
From Coq Require Import Lqa Reals Lra Lia List Permutation. Import ListNotations.

(** C118: the fit starts, for any galaxies, from a magnitude among theirs, *)
Theorem C118_start : forall lo hi gd a b, gd <> [] -> (forall m e, In (m, e) gd -> a <= m <= b)%Q ->
  exists m, start_mag lo hi gd = Ok m /\ (a <= m <= b)%Q.
Proof.
  intros lo hi gd a b N H. unfold start_mag. set (test := map fst _). destruct (3 <=? length test)%nat eqn:E.
  - eexists. split; [reflexivity|]. apply Nat.leb_le in E. apply median_within; [destruct test; [cbn in E; lia|discriminate]|].
    intros x Hx. unfold test in Hx. apply in_map_iff in Hx. destruct Hx as ((m, e) & <- & Hx). apply filter_In in Hx. apply (H m e), Hx.
  - pose proof (sort_perm (map fst gd)) as P. pose proof (Permutation_length P) as L. rewrite map_length in L.
    destruct (nth_error (sortQ (map fst gd)) (frac_index (95 # 100)%Q (length gd))) as [m|] eqn:E1.
    + exists m. split; [reflexivity|]. apply nth_error_In in E1. apply (Permutation_in _ P) in E1. apply in_map_iff in E1. destruct E1 as ((m', e) & <- & E1). exact (H m' e E1).
    + exfalso. apply nth_error_None in E1. rewrite L in E1. assert (0 < length gd)%nat by (destruct gd; [congruence|cbn; lia]).
      unfold frac_index in E1. assert (F : (Qfloor ((95 # 100) * inject_Z (Z.of_nat (length gd)))%Q < Z.of_nat (length gd))%Z); [|lia].
      rewrite Zlt_Qlt. apply Qle_lt_trans with ((95 # 100) * inject_Z (Z.of_nat (length gd)))%Q; [apply Qfloor_le|]. assert (0 < inject_Z (Z.of_nat (length gd)))%Q by (change 0%Q with (inject_Z 0); rewrite <- Zlt_Qlt; lia). Lqa.lra.
Qed.
Print Assumptions C118_start.
(** and, given three galaxies or more with errors about those at the limit, from a magnitude among these. *)
Theorem C118_start_near : forall lo hi gd a b, (3 <= length (filter (fun me => Qlt_bool lo (snd me) && Qlt_bool (snd me) hi) gd))%nat ->
  (forall m e, In (m, e) gd -> lo < e -> e < hi -> a <= m <= b)%Q -> exists m, start_mag lo hi gd = Ok m /\ (a <= m <= b)%Q.
Proof.
  intros lo hi gd a b N H. unfold start_mag. rewrite map_length. rewrite (proj2 (Nat.leb_le _ _) N). eexists. split; [reflexivity|].
  apply median_within; [destruct (filter _ gd); [cbn in N; lia|discriminate]|]. intros x Hx. apply in_map_iff in Hx. destruct Hx as ((m, e) & <- & Hx).
  apply filter_In in Hx. destruct Hx as [Hx K]. apply andb_true_iff in K. destruct K as [K1 K2]. apply Qlt_bool_iff in K1. apply Qlt_bool_iff in K2. exact (H m e Hx K1 K2).
Qed.
Print Assumptions C118_start_near.

Local Open Scope R_scope.
(** The exposure times it tries increase from 1 to 10000, scaled with the zero point; *)
Theorem C118_grid : forall zp, exp_time zp 0 = 1 / pow10 ((zp - 225/10) / (25/10)) /\ exp_time zp 19 = 10000 * (1 / pow10 ((zp - 225/10) / (25/10))) /\
  forall i j, (i < j)%nat -> exp_time zp i < exp_time zp j.
Proof.
  intros zp. set (s := pow10 ((zp - 225/10) / (25/10))). assert (S : 0 < s) by apply pow10_pos.
  assert (B : bin_size zp = ln 10000 / 19).
  { unfold bin_size, exp_hi, exp_lo. fold s. unfold Rdiv at 2 3. rewrite !ln_mult by (try lra; apply Rinv_0_lt_compat, S). rewrite ln_1. field. }
  assert (L : 0 < ln 10000) by (rewrite <- ln_1; apply ln_increasing; lra). assert (E0 : 0 < exp_lo zp) by (unfold exp_lo; apply Rdiv_lt_0_compat; [lra|exact S]).
  split; [unfold exp_time; cbn [INR]; rewrite Rmult_0_l, exp_0; unfold exp_lo; fold s; ring|]. split.
  - unfold exp_time. rewrite B. replace (INR 19 * (ln 10000 / 19)) with (ln 10000) by (cbn [INR]; field). rewrite exp_ln by lra. reflexivity.
  - intros i j H. unfold exp_time. apply Rmult_lt_compat_r; [exact E0|]. apply exp_increasing. apply Rmult_lt_compat_r; [rewrite B; lra|]. apply lt_INR, H.
Qed.
Print Assumptions C118_grid.
(** the one it starts from is no worse than any of the others. *)
Theorem C118_start_exposure : forall zp nsig data lim, exists k t, start_exp zp nsig data lim = Ok t /\ (k < 20)%nat /\ t = exp_time zp k /\
  forall i m1 m2, (i < 20)%nat -> t <= m1 -> exp_time zp i <= m2 -> objective zp nsig m1 data lim t <= objective zp nsig m2 data lim (exp_time zp i).
Proof.
  intros zp nsig data lim. unfold start_exp. set (f := fun i => objective zp nsig (exp_time zp i * 2) data lim (exp_time zp i)).
  assert (P : forall i, 0 < exp_time zp i).
  { intros i. unfold exp_time. apply Rmult_lt_0_compat; [apply exp_pos|]. unfold exp_lo. apply Rdiv_lt_0_compat; [lra|apply pow10_pos]. }
  assert (B : forall t m1 m2, t <= m1 -> t <= m2 -> objective zp nsig m1 data lim t = objective zp nsig m2 data lim t).
  { intros t m1 m2 A1 A2. unfold objective. rewrite (proj2 (Rltb_not m1 t)) by lra. rewrite (proj2 (Rltb_not m2 t)) by lra. reflexivity. }
  destruct (argminR (map f (seq 0 20))) as [k|] eqn:E; [|discriminate E]. destruct (argminR_spec _ _ E) as (v & V & M).
  rewrite nth_error_map in V. destruct (nth_error (seq 0 20) k) as [k'|] eqn:K; [|discriminate]. cbn in V. injection V as V.
  assert (k < 20)%nat by (replace 20%nat with (length (seq 0 20)) by reflexivity; apply nth_error_Some; congruence).
  assert (k' = k). { apply nth_error_nth with (d := 0%nat) in K. rewrite seq_nth in K by assumption. lia. } subst k'.
  exists k, (exp_time zp k). cbn [bind]. split; [reflexivity|]. split; [assumption|]. split; [reflexivity|]. intros i m1 m2 Hi H1 H2.
  assert (Q : v <= f i) by (apply M; apply in_map; apply in_seq; lia). rewrite <- V in Q. unfold f in Q.
  rewrite (B _ m1 (exp_time zp k * 2)), (B _ m2 (exp_time zp i * 2)); [exact Q| | | |]; try assumption; pose proof (P i); pose proof (P k); lra.
Qed.
Print Assumptions C118_start_exposure.
(** Given a minimiser that gets no worse, the depth describes the errors no worse than the start, *)
Theorem C118_no_worse : forall fmin zp nsig lim0 data d, (forall f p q, fmin f p = Some q -> f q <= f p) ->
  fit_depth fmin zp nsig lim0 data = Ok (Some d) ->
  exists t0, start_exp zp nsig data lim0 = Ok t0 /\ objective zp nsig (10 * t0) data (dp_lim d) (dp_exp d) <= objective zp nsig (10 * t0) data lim0 t0.
Proof.
  intros fmin zp nsig lim0 data d F H. unfold fit_depth in H. destruct (start_exp zp nsig data lim0) as [t0|]; cbn [bind] in H; [|discriminate].
  destruct (fmin _ (lim0, t0)) as [p|] eqn:E; [|discriminate]. injection H as <-. exists t0. split; [reflexivity|]. exact (F _ _ _ E).
Qed.
Print Assumptions C118_no_worse.
(** and if the start is allowed then so is the result: no negative sky, and an exposure time of ten times that at the start at most. *)
Theorem C118_allowed : forall fmin zp nsig lim0 data d t0, (forall f p q, fmin f p = Some q -> f q <= f p) ->
  fit_depth fmin zp nsig lim0 data = Ok (Some d) -> start_exp zp nsig data lim0 = Ok t0 ->
  objective zp nsig (10 * t0) data lim0 t0 < 10000000000 -> 0 <= dp_exp d <= 10 * t0 /\ 0 <= dp_fsky d.
Proof.
  intros fmin zp nsig lim0 data d t0 F H S L. destruct (C118_no_worse _ _ _ _ _ _ F H) as (t & E & W). rewrite S in E. injection E as <-.
  assert (G : exists p, d = pars_of zp nsig data p). { unfold fit_depth in H. rewrite S in H. cbn [bind] in H. destruct (fmin _ _) as [p|]; [|discriminate]. injection H as <-. eauto. }
  destruct G as (p & ->). cbn [dp_lim dp_exp pars_of dp_fsky] in *. unfold objective in W at 1. set (dd := {| d_lim := fst p; d_zp := zp; d_exp := snd p; d_nsig := nsig |}) in W.
  destruct (Rltb (snd p) 0) eqn:E1; [cbn [orb] in W; lra|]. destruct (Rltb (10 * t0) (snd p)) eqn:E2; [cbn [orb] in W; lra|]. cbn [orb] in W.
  destruct (Rltb (fsky_raw dd) 0) eqn:E3; [lra|]. apply Rltb_not in E1. apply Rltb_not in E2. apply Rltb_not in E3. split; [lra|exact E3].
Qed.
Print Assumptions C118_allowed.
(** The limiting flux is that of the limiting magnitude, and a source with it is measured with [nsig] times its noise. *)
Theorem C118_consistent : forall fmin zp nsig lim0 data d, 0 < nsig -> fit_depth fmin zp nsig lim0 data = Ok (Some d) ->
  dp_zp d = zp /\ dp_nsig d = nsig /\ dp_flux d = pow10 ((dp_lim d - zp) / (- (25/10))) /\
  dp_fsky d * dp_exp d + dp_exp d * dp_flux d = (dp_exp d * dp_flux d / nsig) * (dp_exp d * dp_flux d / nsig).
Proof.
  intros fmin zp nsig lim0 data d N H. unfold fit_depth in H. destruct (start_exp zp nsig data lim0) as [t0|]; cbn [bind] in H; [|discriminate].
  destruct (fmin _ _) as [p|]; [|discriminate]. injection H as <-. cbn. repeat split. field. lra.
Qed.
Print Assumptions C118_consistent.
(** The fraction of outliers is one. *)
Theorem C118_fraction : forall fmin zp nsig lim0 data d, data <> [] -> fit_depth fmin zp nsig lim0 data = Ok (Some d) -> 0 <= dp_frac d <= 1.
Proof.
  intros fmin zp nsig lim0 data d N H. unfold fit_depth in H. destruct (start_exp zp nsig data lim0) as [t0|]; cbn [bind] in H; [|discriminate].
  destruct (fmin _ _) as [p|]; [|discriminate]. injection H as <-. cbn [dp_frac pars_of]. unfold frac_out. set (g := filter _ data).
  assert (A : (length g <= length data)%nat) by (unfold g; clear; induction data as [|x l IH]; cbn; [lia|]; destruct (Rltb _ _); cbn; lia).
  assert (B : 0 < INR (length data)) by (apply lt_0_INR; destruct data; [congruence|cbn; lia]). apply le_INR in A. pose proof (pos_INR (length g)). split.
  - apply Rmult_le_pos; [assumption|]. left. apply Rinv_0_lt_compat, B.
  - apply Rmult_le_reg_r with (INR (length data)); [exact B|]. unfold Rdiv. rewrite Rmult_assoc, Rinv_l by lra. lra.
Qed.
Print Assumptions C118_fraction.
(** Finding: with useBoot the limiting magnitude and the exposure time are replaced by those of the trials, the limiting flux and the
    sky are not. *)
Theorem C118_boot_refuted : forall fmin zp nsig lim0 data d medlim medexp, fit_depth fmin zp nsig lim0 data = Ok (Some d) -> medlim <> dp_lim d ->
  dp_flux (use_boot medlim medexp d) <> pow10 ((dp_lim (use_boot medlim medexp d) - zp) / (- (25/10))).
Proof.
  intros fmin zp nsig lim0 data d medlim medexp H N E. unfold fit_depth in H. destruct (start_exp zp nsig data lim0) as [t0|]; cbn [bind] in H; [|discriminate].
  destruct (fmin _ _) as [p|]; [|discriminate]. injection H as <-. cbn in N, E. apply N. symmetry. exact (fl_inj zp _ _ E).
Qed.
Print Assumptions C118_boot_refuted.
(** Finding: noise is added to all magnitudes with a single draw, about the number of magnitudes rather than zero: equal magnitudes stay
    equal, and for a draw at the middle of its distribution every one of n galaxies is n times its noise too bright. *)
Theorem C118_noise_refuted : forall d g mags i j m fi fj, nth_error mags i = Some m -> nth_error mags j = Some m ->
  nth_error (noisy_fluxes d g mags) i = Some fi -> nth_error (noisy_fluxes d g mags) j = Some fj ->
  fi = fj /\ fi = dp_exp d * pow10 ((m - dp_zp d) / (- (25/10))) + (INR (length mags) + g) * sqrt (dp_fsky d * dp_exp d + dp_exp d * pow10 ((m - dp_zp d) / (- (25/10)))).
Proof.
  intros d g mags i j m fi fj Hi Hj Ei Ej. unfold noisy_fluxes in Ei, Ej. rewrite nth_error_map, Hi in Ei. rewrite nth_error_map, Hj in Ej. cbn [option_map] in Ei, Ej.
  injection Ei as <-. injection Ej as <-. split; [reflexivity|]. ring.
Qed.
Print Assumptions C118_noise_refuted.

(** cases *)
Example C118_example_start : exists m, start_mag (10#100) (11#100) [(20, 5#100); (21, 105#1000); (22, 106#1000); (23, 104#1000)]%Q = Ok m /\ (m == 22)%Q.
Proof. eexists. split; reflexivity. Qed.
(** no galaxies in the fit: every exposure time is equally good where the sky is not negative *)
Example C118_example : exists d, fit_depth (fun _ p => Some p) (225/10) 1 (225/10) [] = Ok (Some d) /\ dp_flux d = 1 /\ dp_fsky d = dp_exp d - 1 /\ 0 <= dp_fsky d.
Proof.
  destruct (C118_start_exposure (225/10) 1 [] (225/10)) as (k & t & E & K & T & _). unfold fit_depth. rewrite E. cbn [bind]. eexists. split; [reflexivity|].
  cbn [pars_of dp_flux dp_fsky dp_exp fst snd]. assert (P : pow10 ((225 / 10 - 225 / 10) / - (25 / 10)) = 1) by (unfold pow10; replace ((225 / 10 - 225 / 10) / - (25 / 10)) with 0 by field; apply Rpower_O; lra).
  rewrite P. assert (G : 1 <= t). { subst t. destruct (C118_grid (225/10)) as (G0 & _ & M). replace ((225 / 10 - 225 / 10) / (25 / 10)) with 0 in G0 by field. unfold pow10 in G0. rewrite Rpower_O in G0 by lra.
    destruct k; [lra|]. specialize (M 0%nat (S k)). assert (0 < S k)%nat by lia. specialize (M H). lra. }
  split; [reflexivity|]. split; [field|]. unfold Rdiv. rewrite Rmult_1_l, Rmult_1_l, Rinv_1. lra.
Qed.
(** The outliers are the galaxies whose error differs by more than 0.005 from that of the model: the sky and the source as Poisson
    noise, in magnitudes. *)
Theorem C118_outliers : forall fmin zp nsig lim0 data d, data <> [] -> fit_depth fmin zp nsig lim0 data = Ok (Some d) ->
  let source m := dp_exp d * pow10 ((zp - m) / (25/10)) in
  let noise m := sqrt (source m + dp_fsky d * dp_exp d) in
  exists out, (forall x, In x out <-> In x data /\ 5/1000 < Rabs (25/10 / ln 10 * noise (fst x) / source (fst x) - snd x)) /\
    dp_frac d * INR (length data) = INR (length out).
Proof.
  intros fmin zp nsig lim0 data d N H. cbv zeta. unfold fit_depth in H. destruct (start_exp zp nsig data lim0) as [t0|]; cbn [bind] in H; [|discriminate].
  destruct (fmin _ _) as [p|]; [|discriminate]. injection H as <-. cbn [dp_frac dp_exp dp_fsky pars_of]. unfold frac_out. cbv zeta. eexists. split.
  2:{ unfold Rdiv. rewrite Rmult_assoc, Rinv_l, Rmult_1_r; [reflexivity|]. apply not_0_INR. destruct data; [congruence|discriminate]. }
  intros x. rewrite filter_In, Rltb_iff. apply and_iff_compat_l.
  assert (E : forall a b, a = b -> (5/1000 < a <-> 5/1000 < b)) by (intros a b ->; tauto). apply E. f_equal. replace ((zp - fst x) / (25 / 10)) with ((fst x - zp) / - (25 / 10)) by field. rewrite (Rplus_comm (snd p * _)). unfold kmag, Rdiv. ring.
Qed.
Print Assumptions C118_outliers.
