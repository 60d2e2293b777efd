From Coq Require Import QArith Qround Lqa Permutation Reals Lra Lia.
From Verif.Base Require Import Py PyLemmas Sort.
From Verif.Model Require Import BkgGen Depth.
From Verif.Spec Require Import Depth.
From Verif.Proofs Require Import BkgGen Solver.
Local Open Scope R_scope.

Lemma pow10_pos x : 0 < pow10 x. Proof. apply exp_pos. Qed.
Lemma ln10_pos : 0 < ln 10. Proof. rewrite <- ln_1. apply ln_increasing; lra. Qed.
Lemma kmag_pos : 0 < kmag. Proof. unfold kmag. apply Rdiv_lt_0_compat; [lra|apply ln10_pos]. Qed.
Lemma pow10_lt x y : x < y -> pow10 x < pow10 y.
Proof. intros H. apply Rpower_lt; lra. Qed.
Lemma pow10_le x y : x <= y -> pow10 x <= pow10 y.
Proof. intros [H| ->]; [left; apply pow10_lt, H|lra]. Qed.

Definition fl (zp m : R) : R := pow10 ((m - zp) / (- (25/10))).
Lemma fl_pos zp m : 0 < fl zp m. Proof. apply pow10_pos. Qed.
Lemma fl_lt zp m1 m2 : m1 < m2 -> fl zp m2 < fl zp m1.
Proof. intros H. apply pow10_lt. replace ((m2 - zp) / - (25/10)) with (- (4/10) * (m2 - zp)) by field.
  replace ((m1 - zp) / - (25/10)) with (- (4/10) * (m1 - zp)) by field. lra. Qed.
Lemma fl_le zp m1 m2 : m1 <= m2 -> fl zp m2 <= fl zp m1.
Proof. intros [H| ->]; [left; apply fl_lt, H|lra]. Qed.
Lemma fl_inj zp m1 m2 : fl zp m1 = fl zp m2 -> m1 = m2.
Proof. intros H. destruct (Rtotal_order m1 m2) as [L|[E|L]]; [|exact E|]; apply (fl_lt zp) in L; lra. Qed.
Lemma tflux_fl d m : tflux d m = d_exp d * fl (d_zp d) m. Proof. reflexivity. Qed.
Lemma f1lim_fl d : f1lim d = fl (d_zp d) (d_lim d). Proof. reflexivity. Qed.
Lemma tflux_pos d m : sensible d -> 0 < tflux d m.
Proof. intros [H _]. rewrite tflux_fl. pose proof (fl_pos (d_zp d) m). nra. Qed.
Lemma log10_pow10 x : log10 (pow10 x) = x.
Proof. unfold log10, pow10, Rpower. rewrite ln_exp. field. pose proof ln10_pos. lra. Qed.

Lemma fsky_pos d : 1/1000 <= fsky d. Proof. apply Rmax_l. Qed.
Lemma fsky_ok d : sky_ok d -> fsky d = fsky_raw d.
Proof. intros H. apply Rmax_right, H. Qed.

(** sqrt(A + t)/t as the square root of an increasing function of 1/t *)
Lemma err_sqrt A t : 0 <= A -> 0 < t -> sqrt (A + t) / t = sqrt (A * (/ t * / t) + / t).
Proof.
  intros HA Ht. pose proof (Rinv_0_lt_compat t Ht) as Hi. unfold Rdiv.
  rewrite <- (sqrt_square (/ t)) at 1 by lra. rewrite <- sqrt_mult by nra. f_equal. field. lra.
Qed.
Lemma noise_zero d ratio t : noise d ratio 0 t = ratio * sqrt (fsky d * d_exp d + t).
Proof. unfold noise. destruct (Rltb 0 0) eqn:E; [apply Rltb_iff in E; lra|reflexivity]. Qed.
Lemma noise_pos d ratio sigma0 t : sensible d -> 0 < ratio -> 0 < t -> 0 < noise d ratio sigma0 t.
Proof.
  intros [HT _] Hr Ht. pose proof (fsky_pos d).
  assert (H1 : 0 < ratio * sqrt (fsky d * d_exp d + t)) by (apply Rmult_lt_0_compat; [exact Hr|apply sqrt_lt_R0; nra]).
  unfold noise. destruct (Rltb 0 sigma0); [|exact H1].
  apply sqrt_lt_R0. pose proof (Rle_0_sqr (ln 10 / (25/10) * sigma0 * t)) as Hs. unfold Rsqr in Hs. nra.
Qed.
Lemma out_mag d ratio sigma0 m : sensible d ->
  apply_errormodel d ratio sigma0 None OMag None m =
  (d_zp d - 25/10 * log10 (tflux d m / d_exp d), kmag * (noise d ratio sigma0 (tflux d m) / tflux d m)).
Proof.
  intros H. unfold apply_errormodel. rewrite (proj2 (Rltb_iff 0 (tflux d m))) by (apply tflux_pos, H). reflexivity.
Qed.
Lemma err_val d ratio sigma0 m : sensible d ->
  err_out d ratio sigma0 m = kmag * (noise d ratio sigma0 (tflux d m) / tflux d m).
Proof. intros H. unfold err_out. rewrite out_mag by exact H. reflexivity. Qed.
Lemma mag_val d ratio sigma0 m : sensible d -> mag_out d ratio sigma0 m = m.
Proof.
  intros H. unfold mag_out. rewrite out_mag by exact H. cbn [fst].
  assert (E : tflux d m / d_exp d = pow10 ((m - d_zp d) / (- (25/10)))) by (unfold tflux; field; destruct H; lra).
  rewrite E, log10_pow10. field.
Qed.

(** the noise relative to the flux decreases with the flux *)
Lemma noise_ratio d ratio sigma0 t : sensible d -> 0 < ratio -> 0 < t ->
  let c := if Rltb 0 sigma0 then ln 10 / (25/10) * sigma0 else 0 in
  noise d ratio sigma0 t / t = sqrt (ratio * ratio * (fsky d * d_exp d * (/ t * / t) + / t) + c * c).
Proof.
  intros [HT _] Hr Ht c. pose proof (fsky_pos d) as Hf. pose proof (Rinv_0_lt_compat t Ht) as Hi.
  assert (HA : 0 <= fsky d * d_exp d) by nra.
  assert (Hn : ratio * sqrt (fsky d * d_exp d + t) = sqrt (ratio * ratio * (fsky d * d_exp d + t))).
  { rewrite sqrt_mult by nra. rewrite sqrt_square by lra. reflexivity. }
  unfold noise, Rdiv.
  destruct (Rltb 0 sigma0); subst c.
  - rewrite <- (sqrt_square (/ t)) at 1 by lra.
    assert (Hs : ratio * sqrt (fsky d * d_exp d + t) * (ratio * sqrt (fsky d * d_exp d + t)) = ratio * ratio * (fsky d * d_exp d + t)).
    { replace (ratio * sqrt (fsky d * d_exp d + t) * (ratio * sqrt (fsky d * d_exp d + t)))
        with (ratio * ratio * (sqrt (fsky d * d_exp d + t) * sqrt (fsky d * d_exp d + t))) by ring.
      rewrite sqrt_sqrt by nra. reflexivity. }
    rewrite Hs. rewrite <- sqrt_mult.
    + f_equal. field. lra.
    + pose proof (Rle_0_sqr (ln 10 / (25/10) * sigma0 * t)) as Hq. unfold Rsqr in Hq. unfold Rdiv in *. nra.
    + nra.
  - rewrite Hn. rewrite <- (sqrt_square (/ t)) at 1 by lra. rewrite <- sqrt_mult by nra. f_equal. field. lra.
Qed.
Lemma noise_anti d ratio sigma0 t1 t2 : sensible d -> 0 < ratio -> 0 < t1 -> t1 < t2 ->
  noise d ratio sigma0 t2 / t2 < noise d ratio sigma0 t1 / t1.
Proof.
  intros Hd Hr H1 H2. rewrite !noise_ratio by (assumption || lra). destruct Hd as [HT _].
  set (c := if Rltb 0 sigma0 then ln 10 / (25/10) * sigma0 else 0). pose proof (fsky_pos d) as Hf.
  assert (HA : 0 <= fsky d * d_exp d) by nra. set (A := fsky d * d_exp d) in *. clearbody A c.
  assert (Hi : / t2 < / t1) by (apply Rinv_lt_contravar; [apply Rmult_lt_0_compat; lra|lra]).
  pose proof (Rinv_0_lt_compat t2 ltac:(lra)) as Hp. set (x := / t2) in *. set (y := / t1) in *. clearbody x y.
  assert (Hxy : A * (x * x) + x < A * (y * y) + y).
  { assert (x * x < y * y) by nra. nra. }
  assert (Hx : 0 <= A * (x * x)) by (apply Rmult_le_pos; nra).
  assert (Hc : 0 <= c * c) by (apply Rle_0_sqr).
  assert (Hrr : 0 < ratio * ratio) by nra.
  apply sqrt_lt_1; nra.
Qed.
Lemma err_increases d ratio sigma0 m1 m2 : sensible d -> 0 < ratio -> m1 < m2 ->
  err_out d ratio sigma0 m1 < err_out d ratio sigma0 m2.
Proof.
  intros Hd Hr Hm. rewrite !err_val by exact Hd. apply Rmult_lt_compat_l; [apply kmag_pos|].
  apply noise_anti; [exact Hd|exact Hr|apply tflux_pos, Hd|].
  rewrite !tflux_fl. apply Rmult_lt_compat_l; [apply Hd|apply fl_lt, Hm].
Qed.

(** ** at the limiting magnitude *)
Lemma raw_at_lim d : sensible d ->
  fsky_raw d * d_exp d + tflux d (d_lim d) = (tflux d (d_lim d) / d_nsig d) * (tflux d (d_lim d) / d_nsig d).
Proof. intros [HT Hn]. unfold fsky_raw. rewrite tflux_fl, f1lim_fl. field. lra. Qed.
Lemma lim_ratio d : sensible d -> sqrt (fsky_raw d * d_exp d + tflux d (d_lim d)) / tflux d (d_lim d) = / d_nsig d.
Proof.
  intros Hd. pose proof (tflux_pos d (d_lim d) Hd) as Ht. rewrite raw_at_lim by exact Hd. destruct Hd as [HT Hn].
  rewrite sqrt_square; [field; lra|]. apply Rlt_le, Rdiv_lt_0_compat; lra.
Qed.
Lemma err_at_limit d ratio : sensible d -> sky_ok d -> err_out d ratio 0 (d_lim d) = ratio * nsigma_error (d_nsig d).
Proof.
  intros Hd Hs. rewrite err_val by exact Hd. rewrite noise_zero, fsky_ok by exact Hs. unfold nsigma_error. fold kmag.
  replace (kmag * (ratio * sqrt (fsky_raw d * d_exp d + tflux d (d_lim d)) / tflux d (d_lim d)))
    with (ratio * kmag * (sqrt (fsky_raw d * d_exp d + tflux d (d_lim d)) / tflux d (d_lim d))) by (unfold Rdiv; ring).
  rewrite lim_ratio by exact Hd. unfold Rdiv. ring.
Qed.
Lemma err_at_limit_clipped d : sensible d -> ~ sky_ok d -> nsigma_error (d_nsig d) < err_out d 1 0 (d_lim d).
Proof.
  intros Hd Hs. rewrite err_val by exact Hd. rewrite noise_zero. pose proof (tflux_pos d (d_lim d) Hd) as Ht.
  unfold nsigma_error. fold kmag. unfold Rdiv at 1. rewrite <- (lim_ratio d Hd).
  apply Rmult_lt_compat_l; [apply kmag_pos|]. unfold Rdiv. apply Rmult_lt_compat_r; [apply Rinv_0_lt_compat, Ht|].
  rewrite Rmult_1_l. unfold sky_ok in Hs. pose proof (fsky_pos d). pose proof (raw_at_lim d Hd) as Hr.
  destruct Hd as [HT Hn]. apply sqrt_lt_1.
  - rewrite Hr. apply Rle_0_sqr.
  - nra.
  - nra.
Qed.

(** ** exposure time *)
Lemma err_exp d m : sensible d -> sky_ok d ->
  err_out d 1 0 m = kmag * sqrt ((f1lim d / d_nsig d * (f1lim d / d_nsig d) + (fl (d_zp d) m - f1lim d) * / d_exp d)
                                  * (/ fl (d_zp d) m * / fl (d_zp d) m)).
Proof.
  intros Hd Hs. pose proof (tflux_pos d m Hd) as Ht. rewrite err_val by exact Hd. rewrite noise_zero, fsky_ok by exact Hs. f_equal.
  rewrite Rmult_1_l. unfold sky_ok in Hs.
  pose proof (fl_pos (d_zp d) m) as Hf. pose proof (fl_pos (d_zp d) (d_lim d)) as Hf1.
  unfold Rdiv at 1. pose proof (Rinv_0_lt_compat _ Ht) as Hi. destruct Hd as [HT Hn].
  rewrite <- (sqrt_square (/ tflux d m)) by lra. rewrite <- sqrt_mult by nra. f_equal.
  unfold fsky_raw. rewrite f1lim_fl, tflux_fl. field. lra.
Qed.
Lemma err_exptime d t1 t2 m : sensible (with_exp d t1) -> sky_ok (with_exp d t1) -> t1 < t2 -> sky_ok (with_exp d t2) ->
  (m < d_lim d -> err_out (with_exp d t2) 1 0 m < err_out (with_exp d t1) 1 0 m) /\
  (m = d_lim d -> err_out (with_exp d t2) 1 0 m = err_out (with_exp d t1) 1 0 m) /\
  (d_lim d < m -> err_out (with_exp d t1) 1 0 m < err_out (with_exp d t2) 1 0 m).
Proof.
  intros Hd Hs Ht Hs2.
  assert (Hd2 : sensible (with_exp d t2)) by (destruct Hd as [A B]; cbn in *; split; cbn; [lra|exact B]).
  pose proof (err_val (with_exp d t1) 1 0 m Hd) as V1. pose proof (err_val (with_exp d t2) 1 0 m Hd2) as V2.
  rewrite (err_exp (with_exp d t1)) by assumption. rewrite (err_exp (with_exp d t2)) by assumption.
  rewrite !f1lim_fl. cbn [with_exp d_zp d_lim d_nsig d_exp]. destruct Hd as [HT Hn]. cbn in HT, Hn.
  set (f := fl (d_zp d) m). set (f1 := fl (d_zp d) (d_lim d)).
  assert (Hf : 0 < f) by apply fl_pos. assert (Hf1 : 0 < f1) by apply fl_pos.
  assert (Hi : / t2 < / t1) by (apply Rinv_lt_contravar; [apply Rmult_lt_0_compat; lra|lra]).
  pose proof (Rinv_0_lt_compat t2 ltac:(lra)) as Hp.
  assert (Hgen : forall t, 0 < t -> 1/1000 <= fsky_raw (with_exp d t) -> 0 < (f1 / d_nsig d * (f1 / d_nsig d) + (f - f1) * / t)).
  { intros t H0 H. unfold fsky_raw in H. rewrite !f1lim_fl in H. cbn in H. fold f1 in H.
    pose proof (Rinv_0_lt_compat t H0) as H0i.
    assert (E : f1 / d_nsig d * (f1 / d_nsig d) = (f1 * f1 * t / (d_nsig d * d_nsig d)) * / t) by (field; lra).
    rewrite E. assert (0 < f1 * f1 * t / (d_nsig d * d_nsig d) + (f - f1)) by lra. nra. }
  pose proof (Hgen t1 HT Hs) as G1. pose proof (Hgen t2 ltac:(lra) Hs2) as G2.
  assert (Hff : 0 < / f * / f) by (pose proof (Rinv_0_lt_compat f Hf); nra). set (q := / f * / f) in *. clearbody q.
  set (a := f1 / d_nsig d * (f1 / d_nsig d)) in *. clearbody a. pose proof kmag_pos as Hk.
  repeat split; intros Hm.
  - apply (fl_lt (d_zp d)) in Hm. fold f f1 in Hm. apply Rmult_lt_compat_l; [exact Hk|]. apply sqrt_lt_1; [apply Rmult_le_pos; lra|apply Rmult_le_pos; lra|]. apply Rmult_lt_compat_r; [exact Hff|]. apply Rplus_lt_compat_l. nra.
  - subst m. subst f. fold f1. replace (f1 - f1) with 0 by ring. rewrite !Rmult_0_l. reflexivity.
  - apply (fl_lt (d_zp d)) in Hm. fold f f1 in Hm. apply Rmult_lt_compat_l; [exact Hk|]. apply sqrt_lt_1; [apply Rmult_le_pos; lra|apply Rmult_le_pos; lra|]. apply Rmult_lt_compat_r; [exact Hff|]. apply Rplus_lt_compat_l. nra.
Qed.
(** more time raises the implied sky *)
Lemma sky_mono d t1 t2 : 0 < d_nsig d -> t1 <= t2 -> sky_ok (with_exp d t1) -> sky_ok (with_exp d t2).
Proof.
  unfold sky_ok, fsky_raw. rewrite !f1lim_fl. cbn. intros Hn Ht H. set (f1 := fl (d_zp d) (d_lim d)) in *.
  assert (0 <= f1 * f1 / (d_nsig d * d_nsig d)) by (apply Rmult_le_pos; [nra|apply Rlt_le, Rinv_0_lt_compat; nra]).
  assert (f1 * f1 * t1 / (d_nsig d * d_nsig d) <= f1 * f1 * t2 / (d_nsig d * d_nsig d)).
  { unfold Rdiv in *. replace (f1 * f1 * t1 * / (d_nsig d * d_nsig d)) with (f1 * f1 * / (d_nsig d * d_nsig d) * t1) by ring.
    replace (f1 * f1 * t2 * / (d_nsig d * d_nsig d)) with (f1 * f1 * / (d_nsig d * d_nsig d) * t2) by ring. nra. }
  lra.
Qed.

(** ** asinh magnitudes *)
Lemma lup_roundtrip d ratio sigma0 b m : sensible d -> 0 < b ->
  fst (apply_errormodel d ratio sigma0 (Some b) (OLup b) None m) = m.
Proof.
  intros [HT _] Hb. unfold apply_errormodel. cbn [fst]. pose proof ln10_pos as H10.
  assert (E : 1/2 * (tflux_lup d b m / d_exp d) / (b * 1000000000) = sinh (- ln b - (4/10) * ln 10 * m)).
  { unfold tflux_lup. field. lra. }
  rewrite E, arcsinh_sinh. unfold log10. replace (1 / b) with (/ b) by (field; lra). rewrite ln_Rinv by exact Hb. field. lra.
Qed.
Lemma lup_err_pos d ratio sigma0 b bi dr m : sensible d -> 0 < ratio -> 0 < b ->
  0 < (match bi with Some b' => tflux_lup d b' m | None => tflux d m end) ->
  0 < snd (apply_errormodel d ratio sigma0 bi (OLup b) dr m).
Proof.
  intros Hd Hr Hb Ht. unfold apply_errormodel. cbn [snd]. pose proof ln10_pos as H10.
  assert (Hn := noise_pos d ratio sigma0 _ Hd Hr Ht). destruct Hd as [HT _].
  apply Rdiv_lt_0_compat.
  - apply Rmult_lt_0_compat; [lra|]. apply Rdiv_lt_0_compat; assumption.
  - apply Rmult_lt_0_compat; [nra|]. apply sqrt_lt_R0.
    match goal with |- 0 < 1 + ?x * ?x => pose proof (Rle_0_sqr x) as Hx; unfold Rsqr in Hx end. lra.
Qed.

(** ** noise draws *)
Lemma undetected d ratio sigma0 g m : sensible d -> 0 < ratio ->
  let t := tflux d m in let n := noise d ratio sigma0 t in
  (g <= - t / n -> apply_errormodel d ratio sigma0 None OMag (Some g) m = (99, 99)) /\
  (- t / n < g -> 
     snd (apply_errormodel d ratio sigma0 None OMag (Some g) m) = kmag * (n / (t + n * g)) /\
     0 < snd (apply_errormodel d ratio sigma0 None OMag (Some g) m)).
Proof.
  intros Hd Hr t n. assert (Ht : 0 < t) by (apply tflux_pos, Hd). assert (Hn : 0 < n) by (apply noise_pos; assumption).
  assert (Hx : n * (- t / n) = - t) by (field; lra).
  unfold apply_errormodel. fold t. fold n. split; intros H.
  - assert (n * g <= n * (- t / n)) by nra. rewrite (proj2 (Rltb_false 0 (t + n * g))) by lra. reflexivity.
  - assert (n * (- t / n) < n * g) by nra. rewrite (proj2 (Rltb_iff 0 (t + n * g))) by lra. cbn [snd].
    split; [reflexivity|]. apply Rmult_lt_0_compat; [apply kmag_pos|]. apply Rdiv_lt_0_compat; lra.
Qed.

(** ** the fit *)
Lemma fit_error_err d m : sensible d -> sky_ok d -> fit_error d m = err_out d 1 0 m.
Proof. intros Hd Hs. rewrite err_val by exact Hd. rewrite noise_zero, fsky_ok, Rmult_1_l by exact Hs. reflexivity. Qed.
Lemma obj_nonneg zp ns mp data l t : 0 <= objective zp ns mp data l t.
Proof.
  unfold objective. destruct (_ || _); [lra|]. destruct (Rltb _ 0); [lra|].
  induction data as [|[m e] data IH]; cbn [fold_right]; [lra|]. pose proof (Rabs_pos (fit_error {| d_lim := l; d_zp := zp; d_exp := t; d_nsig := ns |} m - e)). cbn [fst snd]. lra.
Qed.
Lemma obj_zero d mp data : sensible d -> sky_ok d -> d_exp d <= mp -> exact_data d data ->
  objective (d_zp d) (d_nsig d) mp data (d_lim d) (d_exp d) = 0.
Proof.
  intros Hd Hs Hm He. unfold objective.
  replace {| d_lim := d_lim d; d_zp := d_zp d; d_exp := d_exp d; d_nsig := d_nsig d |} with d by (destruct d; reflexivity).
  unfold sky_ok in Hs. rewrite (proj2 (Rltb_false (d_exp d) 0)) by (destruct Hd; lra). rewrite (proj2 (Rltb_false mp (d_exp d))) by lra.
  rewrite (proj2 (Rltb_false (fsky_raw d) 0)) by lra. cbn [orb].
  revert He. induction data as [|[m e] data IH]; intros He; cbn [fold_right]; [reflexivity|].
  rewrite IH by (intros m' e' H; apply He; right; exact H). cbn [fst snd].
  rewrite (He m e) by (left; reflexivity). rewrite fit_error_err by assumption. rewrite Rminus_diag_eq by reflexivity. rewrite Rabs_R0. lra.
Qed.
Lemma obj_zero_inv zp ns mp data l t : objective zp ns mp data l t = 0 ->
  let d := {| d_lim := l; d_zp := zp; d_exp := t; d_nsig := ns |} in
  0 <= t <= mp /\ 0 <= fsky_raw d /\ forall m e, In (m, e) data -> fit_error d m = e.
Proof.
  intros H d. unfold objective in H. fold d in H.
  destruct (Rltb t 0) eqn:E1; [cbn [orb] in H; lra|]. destruct (Rltb mp t) eqn:E2; [cbn [orb] in H; lra|]. cbn [orb] in H.
  destruct (Rltb (fsky_raw d) 0) eqn:E3; [lra|].
  assert (F : forall a b, Rltb a b = false -> b <= a).
  { intros a b Hab. destruct (Rle_or_lt b a) as [L|L]; [exact L|]. apply Rltb_iff in L. congruence. }
  apply F in E1, E2, E3. repeat split; [lra|lra|lra|].
  assert (Hn : forall l', 0 <= fold_right (fun me s => Rabs (fit_error d (fst me) - snd me) + s) 0 l').
  { induction l' as [|x l' IH]; cbn [fold_right]; [lra|]. pose proof (Rabs_pos (fit_error d (fst x) - snd x)). lra. }
  clear -H Hn. induction data as [|[m0 e0] data IH]; intros m e Hin; [destruct Hin|]. cbn [fold_right fst snd] in H.
  pose proof (Rabs_pos (fit_error d m0 - e0)) as Hp. pose proof (Hn data) as Hq.
  destruct Hin as [[= <- <-]|Hin].
  - assert (Hz : Rabs (fit_error d m0 - e0) = 0) by lra. destruct (Req_dec (fit_error d m0 - e0) 0) as [Z|Z]; [lra|]. apply Rabs_no_R0 in Z. contradiction.
  - apply IH; [lra|exact Hin].
Qed.
Lemma fit_sq d m : 0 < d_exp d -> 0 < d_nsig d -> 0 <= fsky_raw d ->
  let x := / fl (d_zp d) m in
  (fit_error d m / kmag) * (fit_error d m / kmag) =
   (f1lim d / d_nsig d * (f1lim d / d_nsig d) - f1lim d * / d_exp d) * (x * x) + x * / d_exp d.
Proof.
  intros HT Hn Hs x. pose proof (tflux_pos d m (conj HT Hn)) as Ht. pose proof kmag_pos as Hk. pose proof (fl_pos (d_zp d) m) as Hf.
  unfold fit_error. set (q := sqrt (fsky_raw d * d_exp d + tflux d m)).
  assert (Hq : q * q = fsky_raw d * d_exp d + tflux d m) by (apply sqrt_sqrt; nra).
  replace (kmag * (q / tflux d m) / kmag * (kmag * (q / tflux d m) / kmag)) with ((q * q) / (tflux d m * tflux d m)) by (field; lra).
  rewrite Hq. unfold fsky_raw. subst x. rewrite f1lim_fl, tflux_fl. field. lra.
Qed.
(** two magnitudes are enough to tell depths apart *)
Lemma identifiable d1 d2 m1 m2 : sensible d1 -> sensible d2 -> d_zp d1 = d_zp d2 -> d_nsig d1 = d_nsig d2 ->
  0 <= fsky_raw d1 -> 0 <= fsky_raw d2 -> m1 <> m2 ->
  fit_error d1 m1 = fit_error d2 m1 -> fit_error d1 m2 = fit_error d2 m2 ->
  d_lim d1 = d_lim d2 /\ d_exp d1 = d_exp d2.
Proof.
  intros [HT1 Hn1] [HT2 Hn2] Hz Hn Hs1 Hs2 Hm E1 E2.
  pose proof (fit_sq d1 m1 HT1 Hn1 Hs1) as A1. pose proof (fit_sq d2 m1 HT2 Hn2 Hs2) as A2.
  pose proof (fit_sq d1 m2 HT1 Hn1 Hs1) as B1. pose proof (fit_sq d2 m2 HT2 Hn2 Hs2) as B2.
  rewrite E1 in A1. rewrite E2 in B1. rewrite <- Hz in A2, B2. cbv zeta in A1, A2, B1, B2.
  assert (Hx : / fl (d_zp d1) m1 <> / fl (d_zp d1) m2).
  { intros H. apply Hm. apply (fl_inj (d_zp d1)). rewrite <- (Rinv_inv (fl (d_zp d1) m1)), <- (Rinv_inv (fl (d_zp d1) m2)), H. reflexivity. }
  pose proof (Rinv_0_lt_compat _ (fl_pos (d_zp d1) m1)) as Px. pose proof (Rinv_0_lt_compat _ (fl_pos (d_zp d1) m2)) as Py.
  set (x := / fl (d_zp d1) m1) in *. set (y := / fl (d_zp d1) m2) in *. clearbody x y.
  set (a1 := f1lim d1 / d_nsig d1 * (f1lim d1 / d_nsig d1) - f1lim d1 * / d_exp d1) in *.
  set (a2 := f1lim d2 / d_nsig d2 * (f1lim d2 / d_nsig d2) - f1lim d2 * / d_exp d2) in *.
  assert (C1 : (a1 - a2) * x + (/ d_exp d1 - / d_exp d2) = 0).
  { apply (Rmult_eq_reg_l x); [|lra]. rewrite Rmult_0_r. replace (x * ((a1 - a2) * x + (/ d_exp d1 - / d_exp d2)))
      with ((a1 * (x * x) + x * / d_exp d1) - (a2 * (x * x) + x * / d_exp d2)) by ring. lra. }
  assert (C2 : (a1 - a2) * y + (/ d_exp d1 - / d_exp d2) = 0).
  { apply (Rmult_eq_reg_l y); [|lra]. rewrite Rmult_0_r. replace (y * ((a1 - a2) * y + (/ d_exp d1 - / d_exp d2)))
      with ((a1 * (y * y) + y * / d_exp d1) - (a2 * (y * y) + y * / d_exp d2)) by ring. lra. }
  assert (Ha : a1 - a2 = 0).
  { apply (Rmult_eq_reg_r (x - y)); [|lra]. lra. }
  rewrite Ha in C1. assert (Hti : / d_exp d1 = / d_exp d2) by lra.
  assert (Ht : d_exp d1 = d_exp d2) by (rewrite <- (Rinv_inv (d_exp d1)), <- (Rinv_inv (d_exp d2)), Hti; reflexivity).
  split; [|exact Ht]. apply (fl_inj (d_zp d1)). rewrite Hz at 2. rewrite <- !f1lim_fl.
  subst a1 a2. rewrite <- Hn, <- Ht in Ha. unfold fsky_raw in Hs1, Hs2. rewrite <- Hn, <- Ht in Hs2.
  pose proof (fl_pos (d_zp d1) (d_lim d1)) as P1. rewrite <- f1lim_fl in P1.
  pose proof (fl_pos (d_zp d2) (d_lim d2)) as P2. rewrite <- f1lim_fl in P2.
  set (f := f1lim d1) in *. set (g := f1lim d2) in *. set (n := d_nsig d1) in *. set (T := d_exp d1) in *. clearbody f g n T.
  assert (Hi : 0 < / (n * n)) by (apply Rinv_0_lt_compat; nra). pose proof (Rinv_0_lt_compat T HT1) as HTi.
  assert (E : (f - g) * ((f + g) * / (n * n) - / T) = 0).
  { replace ((f - g) * ((f + g) * / (n * n) - / T)) with (f / n * (f / n) - f * / T - (g / n * (g / n) - g * / T)) by (field; lra). exact Ha. }
  assert (Gf : / T <= f * / (n * n)).
  { assert (H0 : 0 <= f * (f * / (n * n) * T - 1)) by (replace (f * (f * / (n * n) * T - 1)) with (f * f * T / (n * n) - f) by (unfold Rdiv; ring); exact Hs1).
    assert (H1 : 1 <= f * / (n * n) * T) by (destruct (Rle_or_lt 1 (f * / (n * n) * T)) as [L|L]; [exact L|]; nra).
    apply (Rmult_le_reg_r T); [exact HT1|]. rewrite Rinv_l by lra. exact H1. }
  assert (Gg : 0 < g * / (n * n)) by nra.
  apply Rmult_integral in E. destruct E as [E|E]; [lra|]. exfalso. lra.
Qed.

(** ** the data of the fit *)
Close Scope R_scope. Local Open Scope nat_scope.
Lemma finite_In data m e : In (m, e) (finite_gals data) <-> In (Some m, Some e) data /\ (0 < e)%Q.
Proof.
  unfold finite_gals. rewrite in_flat_map. split.
  - intros ([[m'|] [e'|]] & Hin & H); try destruct H. destruct (Qlt_bool 0 e') eqn:E; [|destruct H].
    destruct H as [[= -> ->]|[]]. split; [exact Hin|apply Qlt_bool_iff, E].
  - intros [Hin H]. exists (Some m, Some e). split; [exact Hin|]. apply Qlt_bool_iff in H. rewrite H. left. reflexivity.
Qed.
Lemma frac_lt n : n <> 0 -> frac_index (98#100) n < n.
Proof.
  intros H. unfold frac_index.
  assert (Hq : (0 < inject_Z (Z.of_nat n))%Q) by (change 0%Q with (inject_Z 0); rewrite <- Zlt_Qlt; lia).
  rewrite <- (Nat2Z.id n) at 2. apply Z2Nat.inj_lt; [|lia|].
  - change 0%Z with (Qfloor 0). apply Qfloor_resp_le. Lqa.lra.
  - rewrite Zlt_Qlt. eapply Qle_lt_trans; [apply Qfloor_le|]. Lqa.lra.
Qed.
Lemma usable_ok asort errmax gals : argsort_spec asort -> gals <> [] ->
  exists m, In m (map fst gals) /\
    usable asort errmax gals = Ok (filter (fun me => Qlt_bool (fst me) m && Qlt_bool (snd me) errmax) gals) /\
    length (filter (fun me => Qlt_bool (fst me) m) gals) <= frac_index (98#100) (length gals).
Proof.
  intros Ha Hg. assert (Hl : length gals <> 0) by (destruct gals; [congruence|cbn; lia]).
  pose proof (frac_lt _ Hl) as Hk. set (k := frac_index (98#100) (length gals)) in *.
  pose proof (asort_length asort (map fst gals) Ha) as HL. rewrite map_length in HL. destruct (Ha (map fst gals)) as [Hp Hs].
  destruct (nth_error (asort (map fst gals)) k) as [a|] eqn:Ea; [|apply nth_error_None in Ea; lia].
  assert (Hal : a < length gals).
  { apply nth_error_In in Ea. apply (Permutation_in _ Hp) in Ea. apply in_seq in Ea. rewrite map_length in Ea. lia. }
  destruct (nth_error gals a) as [[m e]|] eqn:Eg; [|apply nth_error_None in Eg; lia].
  exists m. split; [|split].
  - apply in_map_iff. exists (m, e). split; [reflexivity|]. apply nth_error_In in Eg. exact Eg.
  - unfold usable. fold k. rewrite Ea, Eg. reflexivity.
  - (* every smaller magnitude sits before position k in the order *)
    assert (Hperm : Permutation (map (fun i => nth i gals (0%Q, 0%Q)) (asort (map fst gals))) gals).
    { apply Permutation_trans with (map (fun i => nth i gals (0%Q, 0%Q)) (seq 0 (length gals))).
      - apply Permutation_map. rewrite map_length in Hp. exact Hp.
      - replace (map (fun i => nth i gals (0%Q, 0%Q)) (seq 0 (length gals))) with gals; [reflexivity|].
        apply (nth_ext _ _ (0%Q,0%Q) (0%Q,0%Q)); [rewrite map_length, seq_length; reflexivity|].
        intros i Hi. symmetry. rewrite (nth_indep (map _ _) _ (nth 0 gals (0%Q,0%Q))) by (rewrite map_length, seq_length; exact Hi).
        rewrite (map_nth (fun i => nth i gals (0%Q,0%Q)) (seq 0 (length gals)) 0 i). rewrite seq_nth by exact Hi. reflexivity. }
    assert (Hfl : forall l1 l2 : list (Q*Q), Permutation l1 l2 -> length (filter (fun me => Qlt_bool (fst me) m) l1) = length (filter (fun me => Qlt_bool (fst me) m) l2)).
    { intros l1 l2 HP. induction HP; cbn; try (destruct (Qlt_bool (fst x) m); try destruct (Qlt_bool (fst y) m)); cbn; lia. }
    rewrite <- (Hfl _ _ Hperm). set (s := asort (map fst gals)) in *.
    rewrite <- (firstn_skipn k s), map_app, filter_app, app_length.
    assert (H1 : length (filter (fun me => Qlt_bool (fst me) m) (map (fun i => nth i gals (0%Q, 0%Q)) (firstn k s))) <= k).
    { pose proof (firstn_le_length k s) as H1. etransitivity; [|exact H1].
      rewrite <- (map_length (fun i => nth i gals (0%Q, 0%Q)) (firstn k s)). clear.
      induction (map (fun i => nth i gals (0%Q, 0%Q)) (firstn k s)) as [|x l IH]; cbn; [lia|]. destruct (Qlt_bool (fst x) m); cbn; lia. }
    assert (H2 : filter (fun me => Qlt_bool (fst me) m) (map (fun i => nth i gals (0%Q, 0%Q)) (skipn k s)) = []).
    { destruct (filter _ (map _ (skipn k s))) as [|x l] eqn:E; [reflexivity|]. exfalso.
      assert (Hx : In x (x :: l)) by (left; reflexivity). rewrite <- E in Hx. apply filter_In in Hx. destruct Hx as [Hx Hb].
      apply in_map_iff in Hx. destruct Hx as (i & Hi & Hin). apply In_nth_error in Hin. destruct Hin as [j Hj].
      assert (Hj' : nth_error s (k + j) = Some i).
      { clear -Hj. clearbody k s. revert k Hj. induction s as [|a s IH]; intros [|k] Hj; cbn in *; try exact Hj; [destruct j; discriminate|]. apply IH, Hj. }
      assert (Hil : i < length gals).
      { apply nth_error_In in Hj'. apply (Permutation_in _ Hp) in Hj'. apply in_seq in Hj'. rewrite map_length in Hj'. lia. }
      assert (Hx : nth_error gals i = Some x) by (rewrite <- Hi; apply nth_error_nth'; exact Hil).
      apply Qlt_bool_iff in Hb. apply (Qlt_not_le _ _ Hb).
      destruct j as [|j].
      - rewrite Nat.add_0_r, Ea in Hj'. injection Hj' as <-. rewrite Eg in Hx. injection Hx as <-. apply Qle_refl.
      - refine (Hs k (k + S j) a i m (fst x) _ Ea Hj' _ _); [lia| |]; rewrite nth_error_map.
        + rewrite Eg. reflexivity.
        + rewrite Hx. reflexivity. }
    rewrite H2. cbn [length]. lia.
Qed.
