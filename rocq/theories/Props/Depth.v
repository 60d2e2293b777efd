(** C49: the photometric error model; C72: the depth fit. *)
From Coq Require Import QArith Qround Lqa Permutation Reals Lra Lia.
From Verif.Base Require Import Py PyLemmas Sort.
From Verif.Model Require Import BkgGen Depth.
From Verif.Spec Require Import Depth.
From Verif.Proofs Require Import BkgGen Solver Depth.
Local Open Scope R_scope.

(** at the limiting magnitude the error is that of an n-sigma detection, as long as the implied sky is
    above the floor *)
Theorem C49_at_limit_partial d : sensible d -> sky_ok d -> err_out d 1 0 (d_lim d) = nsigma_error (d_nsig d).
Proof. intros H1 H2. rewrite err_at_limit by assumption. lra. Qed.
Print Assumptions C49_at_limit_partial.
(** ... and never otherwise: the floor makes every clipped depth too pessimistic *)
Theorem C49_at_limit_refuted d : sensible d -> ~ sky_ok d -> nsigma_error (d_nsig d) < err_out d 1 0 (d_lim d).
Proof. apply err_at_limit_clipped. Qed.
Print Assumptions C49_at_limit_refuted.
(** the band's error ratio multiplies it *)
Theorem C49_ratio_at_limit_partial d ratio : sensible d -> sky_ok d ->
  err_out d ratio 0 (d_lim d) = ratio * nsigma_error (d_nsig d).
Proof. apply err_at_limit. Qed.
Print Assumptions C49_ratio_at_limit_partial.

(** a depth with a sky above the floor: limit at the zero point, 10 sigma, 200 seconds *)
Example C49_sky_ok : let d := {| d_lim := 45/2; d_zp := 45/2; d_exp := 200; d_nsig := 10 |} in sensible d /\ sky_ok d.
Proof.
  intros d. split; [split; cbn; lra|]. unfold sky_ok, fsky_raw, f1lim, pow10. subst d. cbn [d_lim d_zp d_exp d_nsig].
  replace ((45/2 - 45/2) / - (25/10)) with 0 by field. rewrite Rpower_O by lra. lra.
Qed.
(** and one below: the same with 100 seconds *)
Example C49_clipped : let d := {| d_lim := 45/2; d_zp := 45/2; d_exp := 100; d_nsig := 10 |} in sensible d /\ ~ sky_ok d.
Proof.
  intros d. split; [split; cbn; lra|]. unfold sky_ok, fsky_raw, f1lim, pow10. subst d. cbn [d_lim d_zp d_exp d_nsig].
  replace ((45/2 - 45/2) / - (25/10)) with 0 by field. rewrite Rpower_O by lra. lra.
Qed.

(** fainter means a larger error, with any error ratio and any relative noise floor, clipped or not *)
Theorem C49_increases d ratio sigma0 m1 m2 : sensible d -> 0 < ratio -> m1 < m2 ->
  err_out d ratio sigma0 m1 < err_out d ratio sigma0 m2.
Proof. apply err_increases. Qed.
Print Assumptions C49_increases.
(** so, below the floor or not, galaxies brighter than the limit are measured better than the limit *)
Theorem C49_brighter d m : sensible d -> sky_ok d -> (err_out d 1 0 m < nsigma_error (d_nsig d) <-> m < d_lim d).
Proof.
  intros Hd Hs. rewrite <- C49_at_limit_partial by assumption. split.
  - intros H. destruct (Rtotal_order m (d_lim d)) as [L|[E|L]]; [exact L| |].
    + subst m. lra.
    + apply (err_increases d 1 0) in L; [lra|exact Hd|lra].
  - intros H. apply err_increases; [exact Hd|lra|exact H].
Qed.
Print Assumptions C49_brighter.

(** at a given limiting magnitude a longer exposure gives smaller errors only for galaxies brighter
    than it *)
Theorem C49_exposure_partial d t1 t2 m : 0 < t1 -> 0 < d_nsig d -> sky_ok (with_exp d t1) -> t1 < t2 -> m < d_lim d ->
  err_out (with_exp d t2) 1 0 m < err_out (with_exp d t1) 1 0 m.
Proof.
  intros H1 Hn Hs Ht Hm. apply (err_exptime d t1 t2 m); try assumption; [split; cbn; assumption|].
  apply (sky_mono d t1 t2); [exact Hn|lra|exact Hs].
Qed.
Print Assumptions C49_exposure_partial.
(** for fainter ones it gives larger errors, always *)
Theorem C49_exposure_refuted d t1 t2 m : 0 < t1 -> 0 < d_nsig d -> sky_ok (with_exp d t1) -> t1 < t2 -> d_lim d < m ->
  err_out (with_exp d t1) 1 0 m < err_out (with_exp d t2) 1 0 m.
Proof.
  intros H1 Hn Hs Ht Hm. apply (err_exptime d t1 t2 m); try assumption; [split; cbn; assumption|].
  apply (sky_mono d t1 t2); [exact Hn|lra|exact Hs].
Qed.
Print Assumptions C49_exposure_refuted.

(** without noise the magnitudes come back as they were, ordinary and asinh ones alike *)
Theorem C49_noiseless d ratio sigma0 m : sensible d -> mag_out d ratio sigma0 m = m.
Proof. apply mag_val. Qed.
Print Assumptions C49_noiseless.
Theorem C49_noiseless_asinh d ratio sigma0 b m : sensible d -> 0 < b ->
  fst (apply_errormodel d ratio sigma0 (Some b) (OLup b) None m) = m.
Proof. apply lup_roundtrip. Qed.
Print Assumptions C49_noiseless_asinh.

(** asked for fluxes instead of magnitudes, the model gives the flux of the input magnitude for the zero
    point, whatever the exposure time, and an error that is the magnitude's error in flux units *)
Theorem C49_flux d ratio sigma0 m : sensible d ->
  let f := apply_errormodel d ratio sigma0 None OFlux None m in
  0 < fst f /\ d_zp d - 25/10 * log10 (fst f) = m /\ err_out d ratio sigma0 m = 25/10 / ln 10 * (snd f / fst f).
Proof.
  intros H f. pose proof (C49_noiseless d ratio sigma0 m H) as M. destruct H as [He Hn].
  assert (T : 0 < tflux d m) by (unfold tflux, pow10; apply Rmult_lt_0_compat; [exact He|apply exp_pos]).
  subst f. unfold mag_out, err_out, apply_errormodel in *. cbn [fst snd] in *.
  rewrite (proj2 (Rltb_iff 0 (tflux d m)) T) in *. cbn [fst snd] in *.
  split; [apply Rdiv_lt_0_compat; assumption|]. split; [exact M|].
  unfold kmag. f_equal. field. split; lra.
Qed.
Print Assumptions C49_flux.
(** with noise, the fluxes and the magnitudes of the same draw say the same *)
Theorem C49_flux_noise d ratio sigma0 g m : sensible d ->
  let f := apply_errormodel d ratio sigma0 None OFlux (Some g) m in
  apply_errormodel d ratio sigma0 None OMag (Some g) m =
    (if Rlt_dec 0 (fst f) then (d_zp d - 25/10 * log10 (fst f), 25/10 / ln 10 * (snd f / fst f)) else (99, 99)).
Proof.
  intros [He Hn] f. subst f. unfold apply_errormodel. cbn [fst snd].
  set (n := noise _ _ _ _). set (x := tflux d m + n * g).
  destruct (Rlt_dec 0 (x / d_exp d)) as [L|L].
  - assert (X : 0 < x) by (replace x with (x / d_exp d * d_exp d) by (field; lra); apply Rmult_lt_0_compat; assumption).
    rewrite (proj2 (Rltb_iff 0 x) X). f_equal. unfold kmag. f_equal. field. split; lra.
  - destruct (Rltb 0 x) eqn:E; [|reflexivity]. exfalso. apply Rltb_iff in E. apply L. apply Rdiv_lt_0_compat; assumption.
Qed.
Print Assumptions C49_flux_noise.

(** with noise a galaxy gets the 99s exactly when its noisy flux is not positive; any other has a
    positive error *)
Theorem C49_undetected d ratio sigma0 g m : sensible d -> 0 < ratio ->
  let t := tflux d m in let n := noise d ratio sigma0 t in
  (g <= - t / n -> apply_errormodel d ratio sigma0 None OMag (Some g) m = (99, 99)) /\
  (- t / n < g ->
     snd (apply_errormodel d ratio sigma0 None OMag (Some g) m) = 25/10 / ln 10 * (n / (t + n * g)) /\
     0 < snd (apply_errormodel d ratio sigma0 None OMag (Some g) m)).
Proof. apply undetected. Qed.
Print Assumptions C49_undetected.

(** ** C72 *)
(** the fit and the error model use the same errors wherever the sky is above the floor *)
Theorem C72_same_model d m : sensible d -> sky_ok d -> fit_error d m = err_out d 1 0 m.
Proof. apply fit_error_err. Qed.
Print Assumptions C72_same_model.
(** errors that follow a depth exactly: that depth is a minimum of the fitted function ... *)
Theorem C72_true_depth_minimises d maxp1 data : sensible d -> sky_ok d -> d_exp d <= maxp1 -> exact_data d data ->
  objective (d_zp d) (d_nsig d) maxp1 data (d_lim d) (d_exp d) = 0 /\
  forall lim t, 0 <= objective (d_zp d) (d_nsig d) maxp1 data lim t.
Proof. intros H1 H2 H3 H4. split; [apply obj_zero; assumption|intros; apply obj_nonneg]. Qed.
Print Assumptions C72_true_depth_minimises.
(** ... and the only one, as soon as two galaxies have different magnitudes *)
Theorem C72_unique d maxp1 data m1 e1 m2 e2 lim t : sensible d -> sky_ok d -> exact_data d data ->
  In (m1, e1) data -> In (m2, e2) data -> m1 <> m2 -> 0 < t ->
  objective (d_zp d) (d_nsig d) maxp1 data lim t = 0 -> lim = d_lim d /\ t = d_exp d.
Proof.
  intros Hd Hs He H1 H2 Hm Ht Ho. destruct (obj_zero_inv _ _ _ _ _ _ Ho) as (_ & Hf & HF).
  set (d' := {| d_lim := lim; d_zp := d_zp d; d_exp := t; d_nsig := d_nsig d |}) in *.
  change lim with (d_lim d'). change t with (d_exp d').
  apply (identifiable d' d m1 m2); try reflexivity; try assumption.
  - split; [exact Ht|apply Hd].
  - unfold sky_ok in Hs. lra.
  - rewrite (HF m1 e1 H1), (He m1 e1 H1). symmetry. apply fit_error_err; assumption.
  - rewrite (HF m2 e2 H2), (He m2 e2 H2). symmetry. apply fit_error_err; assumption.
Qed.
Print Assumptions C72_unique.

Close Scope R_scope. Local Open Scope nat_scope.
(** only real measurements with a positive error, better than the cut, enter the fit, and at most 98
    per cent of them *)
Theorem C72_data asort errmax data gd : argsort_spec asort -> usable asort errmax (finite_gals data) = Ok gd ->
  (forall m e, In (m, e) gd -> In (Some m, Some e) data /\ (0 < e < errmax)%Q) /\
  (inject_Z (Z.of_nat (length gd)) <= (98#100) * inject_Z (Z.of_nat (length data)))%Q.
Proof.
  intros Ha H. set (gals := finite_gals data) in *.
  assert (Hne : gals <> []).
  { intros E. rewrite E in H. unfold usable in H. pose proof (asort_length asort [] Ha) as HL. cbn [map length] in *.
    destruct (asort []) as [|a l]; [|discriminate HL]. destruct (frac_index (98#100) 0); discriminate H. }
  destruct (usable_ok asort errmax gals Ha Hne) as (m & _ & Hu & Hl). rewrite Hu in H. injection H as <-.
  split.
  - intros m' e Hin. apply filter_In in Hin. destruct Hin as [Hin Hb]. apply andb_true_iff in Hb. destruct Hb as [_ Hb].
    apply finite_In in Hin. destruct Hin as [Hin H0]. split; [exact Hin|]. split; [exact H0|apply Qlt_bool_iff, Hb].
  - assert (L1 : length (filter (fun me => Qlt_bool (fst me) m && Qlt_bool (snd me) errmax) gals) <= length (filter (fun me => Qlt_bool (fst me) m) gals)).
    { clear. induction gals as [|x l IH]; cbn; [lia|]. destruct (Qlt_bool (fst x) m); cbn; [|exact IH]. destruct (Qlt_bool (snd x) errmax); cbn; lia. }
    assert (L2 : length gals <= length data).
    { subst gals. clear. unfold finite_gals. induction data as [|[[a|] [b|]] l IH]; cbn [flat_map length]; [lia| | | |]; rewrite app_length; [destruct (Qlt_bool 0 b)| | |]; cbn [length]; lia. }
    assert (L3 : (inject_Z (Z.of_nat (frac_index (98#100) (length gals))) <= (98#100) * inject_Z (Z.of_nat (length gals)))%Q).
    { unfold frac_index. rewrite Z2Nat.id; [apply Qfloor_le|]. change 0%Z with (Qfloor 0). apply Qfloor_resp_le.
      assert ((0 <= inject_Z (Z.of_nat (length gals)))%Q) by (change 0%Q with (inject_Z 0); rewrite <- Zle_Qle; lia). Lqa.lra. }
    assert (L4 : (inject_Z (Z.of_nat (length gals)) <= inject_Z (Z.of_nat (length data)))%Q) by (rewrite <- Zle_Qle; lia).
    assert (L5 : (inject_Z (Z.of_nat (length (filter (fun me => Qlt_bool (fst me) m && Qlt_bool (snd me) errmax) gals))) <= inject_Z (Z.of_nat (frac_index (98#100) (length gals))))%Q)
      by (rewrite <- Zle_Qle; lia).
    Lqa.lra.
Qed.
Print Assumptions C72_data.
(** a galaxy that is clearly good enough and brighter than 98 per cent of the rest is used *)
Theorem C72_selects asort errmax data gd m e : argsort_spec asort -> usable asort errmax (finite_gals data) = Ok gd ->
  In (Some m, Some e) data -> (0 < e < errmax)%Q ->
  (In (m, e) gd \/ exists cut, In cut (map fst (finite_gals data)) /\ (cut <= m)%Q /\
      length (filter (fun me => Qlt_bool (fst me) cut) (finite_gals data)) <= frac_index (98#100) (length (finite_gals data))).
Proof.
  intros Ha H Hin [H0 H1]. assert (Hf : In (m, e) (finite_gals data)) by (apply finite_In; split; assumption).
  assert (Hne : finite_gals data <> []) by (intros E; rewrite E in Hf; destruct Hf).
  destruct (usable_ok asort errmax (finite_gals data) Ha Hne) as (cut & Hc & Hu & Hl). rewrite Hu in H. injection H as <-.
  destruct (Qlt_bool m cut) eqn:E.
  - left. apply filter_In. split; [exact Hf|]. cbn [fst snd]. rewrite E. apply Qlt_bool_iff in H1. rewrite H1. reflexivity.
  - right. exists cut. repeat split; [exact Hc| |exact Hl]. apply Qnot_lt_le. intros L. apply Qlt_bool_iff in L. congruence.
Qed.
Print Assumptions C72_selects.

(** with one usable measurement or more the fit answers: parameters or the failure flag *)
Theorem C72_answers_partial {P} asort errmax (fit : list (Q * Q) -> option P) data : argsort_spec asort ->
  (exists m e, In (Some m, Some e) data /\ (0 < e)%Q) -> exists o, calc_error_model asort errmax fit data = Ok o.
Proof.
  intros Ha (m & e & Hin & H0). assert (Hf : In (m, e) (finite_gals data)) by (apply finite_In; split; assumption).
  assert (Hne : finite_gals data <> []) by (intros E; rewrite E in Hf; destruct Hf).
  destruct (usable_ok asort errmax (finite_gals data) Ha Hne) as (cut & _ & Hu & _). unfold calc_error_model. rewrite Hu. cbn [bind].
  destruct (filter _ _); eexists; reflexivity.
Qed.
Print Assumptions C72_answers_partial.
(** a catalog whose measurements are all worse than the S/N cut sets the failure flag, whatever the minimiser would do *)
Theorem C72_no_good {P} asort errmax (fit : list (Q * Q) -> option P) data : argsort_spec asort ->
  (exists m e, In (Some m, Some e) data /\ (0 < e)%Q) ->
  (forall m e, In (Some m, Some e) data -> (0 < e)%Q -> (errmax <= e)%Q) ->
  calc_error_model asort errmax fit data = Ok None.
Proof.
  intros Ha (m & e & Hin & H0) Hbad. assert (Hf : In (m, e) (finite_gals data)) by (apply finite_In; split; assumption).
  assert (Hne : finite_gals data <> []) by (intros E; rewrite E in Hf; destruct Hf).
  destruct (usable_ok asort errmax (finite_gals data) Ha Hne) as (cut & _ & Hu & _). unfold calc_error_model. rewrite Hu. cbn [bind].
  destruct (filter _ _) as [|[m' e'] l] eqn:E; [reflexivity|]. exfalso.
  assert (Hx : In (m', e') (filter (fun me => Qlt_bool (fst me) cut && Qlt_bool (snd me) errmax) (finite_gals data))) by (rewrite E; left; reflexivity).
  apply filter_In in Hx as [Hx Hb]. apply andb_true_iff in Hb as [_ Hb]. apply finite_In in Hx as [Hx Hpos].
  apply Qlt_bool_iff in Hb. cbn in Hb. specialize (Hbad m' e' Hx Hpos). apply (Qlt_not_le _ _ Hb Hbad).
Qed.
Print Assumptions C72_no_good.
(** with none it raises IndexError instead of setting the failure flag: no fallback is reached *)
Theorem C72_answers_refuted {P} asort errmax (fit : list (Q * Q) -> option P) data init : argsort_spec asort ->
  ~ (exists m e, In (Some m, Some e) data /\ (0 < e)%Q) ->
  calc_error_model asort errmax fit data = Err IndexError /\
  calc_maskdepth init (calc_error_model asort errmax fit data) = Err IndexError.
Proof.
  intros Ha H. assert (E : finite_gals data = []).
  { destruct (finite_gals data) as [|[m e] l] eqn:E; [reflexivity|]. exfalso. apply H. exists m, e. apply finite_In. rewrite E. left. reflexivity. }
  assert (Hc : calc_error_model asort errmax fit data = Err IndexError).
  { unfold calc_error_model, usable. rewrite E. pose proof (asort_length asort [] Ha) as HL. cbn [map length] in *.
    destruct (asort []) as [|a l]; [|discriminate HL]. destruct (frac_index (98#100) 0); reflexivity. }
  rewrite Hc. split; reflexivity.
Qed.
Print Assumptions C72_answers_refuted.
(** a failed fit falls back on the survey's parameters; a failed survey fit is an error *)
Theorem C72_fallback {P} (init : P) o :
  calc_maskdepth init (Ok None) = Ok init /\ calc_maskdepth init (Ok (Some o)) = Ok o /\
  depthlim_init (Ok (Some o)) = Ok o /\ depthlim_init (P:=P) (Ok None) = Err RuntimeError.
Proof. repeat split. Qed.
Print Assumptions C72_fallback.

Example C72_runs : usable argsort (43#100) (finite_gals [(Some 20, Some (1#10)); (None, Some (1#10)); (Some 22, Some (1#2)); (Some 21, Some (1#5)); (Some 19, Some 0); (Some 24, Some (1#3))]%Q)
  = Ok [(20, 1#10); (21, 1#5)]%Q.
Proof. reflexivity. Qed.
