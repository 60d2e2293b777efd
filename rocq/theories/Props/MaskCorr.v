(** Properties C79-C81 (mask.py, cluster.py, run_randoms_zmask.py: the mask correction). *)
From Coq Require Import Reals Lra.
From Verif.Base Require Import Py PyLemmas.
From Verif.Model Require Import BkgGen Solver Richness MaskCorr.
From Verif.Spec Require Import Solver Richness MaskCorr.
From Verif.Proofs Require Import BkgGen Solver Richness MaskCorr.
From Coq Require Import Lia List. Import ListNotations.
Local Open Scope R_scope.

(** C79.  The correction at each radius is one minus the detected over the expected mask galaxies. *)
Theorem C79_fraction : forall erf obs lim mstar maxmag limmag rsig bright radbins rows gs, 0 < rsig ->
  gs = gen_sample erf rsig bright radbins rows -> depth_known gs -> limit_rule limmag gs lim ->
  exists c, maskc erf obs mstar maxmag limmag gs = Ok c /\ List.length c = List.length radbins /\
    forall j rad, nth_error radbins j = Some rad ->
      nth_error c j = Some (1 - detected erf obs lim mstar maxmag rsig rad gs / expected erf rsig bright rad gs).
Proof. exact fraction. Qed.
Print Assumptions C79_fraction.

(** C79.  It never exceeds one, and is not negative when no galaxy fainter than the reference luminosity is seen. *)
Theorem C79_bounds : forall erf obs lim mstar maxmag limmag rsig bright radbins rows gs c j rad v, 0 < rsig ->
  gs = gen_sample erf rsig bright radbins rows -> depth_known gs -> limit_rule limmag gs lim -> erf_bounded erf ->
  maskc erf obs mstar maxmag limmag gs = Ok c -> nth_error radbins j = Some rad -> nth_error c j = Some v ->
  0 < expected erf rsig bright rad gs ->
  v <= 1 /\
  ((forall g, In g gs -> bright <= m_m g -> seen erf obs lim mstar maxmag g = 0) -> 0 <= v) /\
  ((forall g, In g gs -> seen erf obs lim mstar maxmag g = 0) -> v = 1) /\
  ((forall g, In g gs -> m_m g < bright -> seen erf obs lim mstar maxmag g = 1) ->
   (forall g, In g gs -> bright <= m_m g -> seen erf obs lim mstar maxmag g = 0) -> v = 0).
Proof.
  intros erf obs lim mstar maxmag limmag rsig bright radbins rows gs c j rad v Hs Hgs Hd Hr He Hc Hj Hv Hpos.
  destruct (fraction erf obs lim mstar maxmag limmag rsig bright radbins rows gs Hs Hgs Hd Hr) as (c' & Hc' & _ & H).
  rewrite Hc in Hc'. injection Hc' as <-. rewrite (H j rad Hj) in Hv. injection Hv as <-.
  split; [apply frac_le1; [apply detected_nonneg, He|exact Hpos]|]. split.
  { intros Hf. apply frac_ge0; [apply detected_le_expected; assumption|exact Hpos]. } split.
  - intros H0. rewrite detected_none by exact H0. field. lra.
  - intros H1 H0. rewrite (detected_all _ _ _ _ _ _ bright) by assumption. field. lra.
Qed.
Print Assumptions C79_bounds.

(** C79.  Seeing less never lowers the correction. *)
Theorem C79_monotone : forall erf obs obs' lim lim' mstar maxmag limmag limmag' rsig bright radbins rows rows' c c' j rad v v', 0 < rsig ->
  let gs := gen_sample erf rsig bright radbins rows in let gs' := gen_sample erf rsig bright radbins rows' in
  depth_known gs -> limit_rule limmag gs lim -> depth_known gs' -> limit_rule limmag' gs' lim' -> erf_bounded erf ->
  Forall2 (fun g g' => m_r g = m_r g' /\ m_m g = m_m g' /\
             seen erf obs' lim' mstar maxmag g' <= seen erf obs lim mstar maxmag g) gs gs' ->
  maskc erf obs mstar maxmag limmag gs = Ok c -> maskc erf obs' mstar maxmag limmag' gs' = Ok c' ->
  nth_error radbins j = Some rad -> nth_error c j = Some v -> nth_error c' j = Some v' ->
  0 < expected erf rsig bright rad gs -> v <= v'.
Proof.
  intros erf obs obs' lim lim' mstar maxmag limmag limmag' rsig bright radbins rows rows' c c' j rad v v' Hs gs gs' Hd Hr Hd' Hr' He HF Hc Hc' Hj Hv Hv' Hpos.
  destruct (fraction erf obs lim mstar maxmag limmag rsig bright radbins rows gs Hs eq_refl Hd Hr) as (c1 & E1 & _ & H1).
  destruct (fraction erf obs' lim' mstar maxmag limmag' rsig bright radbins rows' gs' Hs eq_refl Hd' Hr') as (c2 & E2 & _ & H2).
  rewrite Hc in E1. injection E1 as <-. rewrite Hc' in E2. injection E2 as <-.
  rewrite (H1 j rad Hj) in Hv. injection Hv as <-. rewrite (H2 j rad Hj) in Hv'. injection Hv' as <-.
  assert (Hex : expected erf rsig bright rad gs' = expected erf rsig bright rad gs /\
                detected erf obs' lim' mstar maxmag rsig rad gs' <= detected erf obs lim mstar maxmag rsig rad gs).
  { clear -HF He. unfold expected, detected. revert HF. generalize gs gs'. clear -He. intros gs gs' HF.
    induction HF as [|g g' l l' (Er & Em & Hle) _ [IH1 IH2]]; cbn [total_of]; [lra|].
    assert (Ei : inside erf rsig rad g' = inside erf rsig rad g) by (unfold inside; rewrite Er; reflexivity).
    rewrite Ei, IH1, <- Em. split; [reflexivity|].
    pose proof (inside_bounds erf rsig rad g He).
    assert (seen erf obs' lim' mstar maxmag g' * inside erf rsig rad g <= seen erf obs lim mstar maxmag g * inside erf rsig rad g)
      by (apply Rmult_le_compat_r; lra). lra. }
  destruct Hex as [-> Hle]. unfold Rdiv.
  assert (0 < / expected erf rsig bright rad gs) by (apply Rinv_0_lt_compat, Hpos).
  assert (detected erf obs' lim' mstar maxmag rsig rad gs' * / expected erf rsig bright rad gs <=
          detected erf obs lim mstar maxmag rsig rad gs * / expected erf rsig bright rad gs)
    by (apply Rmult_le_compat_r; lra). lra.
Qed.
Print Assumptions C79_monotone.

(** C79.  An unusable depth or completeness model is an error, never a silent value. *)
Theorem C79_errors : forall erf obs mstar maxmag limmag g0 t,
  (m_limmag g0 <= 0 -> maskc erf obs mstar maxmag limmag (g0 :: t) = Err ValueError) /\
  (0 < m_limmag g0 -> 0 < m_w g0 -> maskc erf obs mstar maxmag limmag (g0 :: t) = Err RuntimeError).
Proof.
  intros. split; intros H; unfold maskc.
  - assert (E : Rltb 0 (m_limmag g0) = false) by (apply Rltb_false; exact H). rewrite E. reflexivity.
  - intros Hw. apply Rltb_iff in H. rewrite H. unfold det_limit.
    assert (E : Rltb (m_w g0) 0 = false) by (apply Rltb_false; lra). rewrite E.
    destruct (Req_EM_T (m_w g0) 0); [lra|]. reflexivity.
Qed.
Print Assumptions C79_errors.

(** C79.  The coefficients kept for a cluster are those of a cubic fitted to these fractions: with a fit that gives back a cubic
    from its own values at the radii, fractions that follow a cubic are found again at every radius. *)
Theorem C79_coefficients : forall polyfit erf obs lim mstar maxmag limmag rsig bright radbins rows gs c0 c1 c2 c3, 0 < rsig ->
  gs = gen_sample erf rsig bright radbins rows -> depth_known gs -> limit_rule limmag gs lim ->
  (forall a b c d, polyfit radbins (map (fun r => a * r ^ 3 + b * r ^ 2 + c * r + d) radbins) = (a, b, c, d)) ->
  (forall rad, In rad radbins -> 1 - detected erf obs lim mstar maxmag rsig rad gs / expected erf rsig bright rad gs = c0 * rad ^ 3 + c1 * rad ^ 2 + c2 * rad + c3) ->
  calc_maskcorr polyfit radbins erf obs mstar maxmag limmag gs = Ok (c0, c1, c2, c3).
Proof.
  intros polyfit erf obs lim mstar maxmag limmag rsig bright radbins rows gs c0 c1 c2 c3 Hs Hgs Hd Hr Hp Hc.
  destruct (fraction erf obs lim mstar maxmag limmag rsig bright radbins rows gs Hs Hgs Hd Hr) as (c & E & L & H).
  unfold calc_maskcorr. rewrite E. cbn [bind]. rewrite <- Hp. do 2 f_equal. apply nth_error_ext. intros j. rewrite nth_error_map.
  destruct (nth_error radbins j) as [rad|] eqn:Ej; cbn [option_map].
  - rewrite (H j rad Ej). f_equal. apply Hc. apply nth_error_In in Ej. exact Ej.
  - apply nth_error_None. apply nth_error_None in Ej. lia.
Qed.
Print Assumptions C79_coefficients.
(** C79.  No coefficients without the fractions. *)
Theorem C79_coefficients_errors : forall polyfit radbins erf obs mstar maxmag limmag gs,
  (forall x, maskc erf obs mstar maxmag limmag gs = Err x -> calc_maskcorr polyfit radbins erf obs mstar maxmag limmag gs = Err x) /\
  (forall c, maskc erf obs mstar maxmag limmag gs = Ok c -> calc_maskcorr polyfit radbins erf obs mstar maxmag limmag gs = Ok (polyfit radbins c)).
Proof. intros. unfold calc_maskcorr. split; intros ? ->; reflexivity. Qed.
Print Assumptions C79_coefficients_errors.

(** C79.  Every sample of a mask galaxy file carries its own normalisation. *)
Theorem C79_sample : forall erf rsig bright radbins ngals nsamples rows k,
  List.length rows = (ngals * nsamples)%nat -> (k < nsamples)%nat ->
  select_sample ngals k (gen_all erf rsig bright radbins ngals nsamples rows) =
    gen_sample erf rsig bright radbins (select_sample ngals k rows) /\
  List.length (select_sample ngals k (gen_all erf rsig bright radbins ngals nsamples rows)) = ngals.
Proof. exact select_gen. Qed.
Print Assumptions C79_sample.

Definition mg (r m : R) (mark : bool) : mgal := mkM r m 1 1 1 1 mark 22 (-1) 0 [] [].
Definition step_erf (x : R) : R := if Rlt_dec x 0 then -1 else 1.
Lemma step_erf_bounded : erf_bounded step_erf.
Proof. intros x. unfold step_erf. destruct (Rlt_dec x 0); lra. Qed.
Definition no_noise (g : mgal) (mag : R) : R * R := (mag, 1/1000).

Lemma seen_bright r m th nin : m <= -1 -> seen step_erf no_noise (fun _ => 22) 19 20 (set_radial (mg r m true) th nin) = 1.
Proof.
  intros H. unfold seen. cbn [m_mark mg set_radial m_m]. unfold no_noise. cbn [fst snd].
  apply theta_bright; [lra|]. unfold eff_lim. cbv beta. rewrite Rmax_left by lra. rewrite Rmin_left by lra. lra.
Qed.

(** Finding: the file's own ngals (kept in its header) is not checked.  Reading a file with another value of
    maskgal_ngals divides by the normalisation of another sample size: nothing is lost, yet c = 1/2. *)
Theorem C79_ngals_refuted : exists rows c,
  (forall g, In g rows -> seen step_erf no_noise (fun _ => 22) 19 20 g = 1 /\ m_m g < 0) /\
  maskc step_erf no_noise 19 20 22
    (select_sample 1 0 (gen_all step_erf (1/10) 0 [1] 2 1 rows)) = Ok c /\ nth_error c 0 = Some (1/2).
Proof.
  exists [mg (1/2) (-1) true; mg (1/2) (-2) true]. eexists. split.
  { intros g [<-|[<-|[]]]; (split; [|cbn; lra]).
    - apply (seen_bright (1/2) (-1) [] []). lra.
    - apply (seen_bright (1/2) (-2) [] []). lra. }
  cbn [gen_all select_sample slice seq map List.concat firstn skipn Nat.mul Nat.add Nat.sub app gen_sample].
  split.
  { unfold maskc. cbn [m_limmag set_radial mg].
    assert (E : Rltb 0 22 = true) by (apply Rltb_iff; lra). rewrite E.
    unfold det_limit. cbn [m_w set_radial mg].
    assert (E1 : Rltb (-1) 0 = true) by (apply Rltb_iff; lra). rewrite E1. cbn [bind]. reflexivity. }
  cbn [m_nin set_radial mg List.length map seq combine fst snd nth_error]. f_equal.
  unfold nin_of. cbn [filter m_m mg].
  assert (E1 : Rltb (-1) 0 = true) by (apply Rltb_iff; lra). assert (E2 : Rltb (-2) 0 = true) by (apply Rltb_iff; lra).
  rewrite E1, E2. cbn [map m_theta nth set_radial m_r mg]. unfold lsum. cbn [fold_left].
  assert (Eth : theta_rad step_erf (1/10) 1 (1/2) = 1).
  { unfold theta_rad. rewrite Rleb_false by lra. unfold step_erf.
    assert (0 < sqrt 2) by (apply sqrt_lt_R0; lra).
    destruct (Rlt_dec ((1 - 1/2) / (sqrt 2 * (1/10))) 0) as [h|h]; [|lra].
    exfalso. assert (0 < (1 - 1/2) / (sqrt 2 * (1/10))); [|lra].
    apply Rdiv_lt_0_compat; lra. }
  rewrite Eth.
  rewrite (pdet_seen step_erf no_noise (fun _ => 22) (fun _ => 22)) by reflexivity.
  rewrite (seen_bright (1/2) (-1)) by lra. field.
Qed.
Print Assumptions C79_ngals_refuted.

(** Finding: with a hard edge (rsig <= 0) the radius is ignored: every mask galaxy counts at every radius. *)
Theorem C79_hard_edge_refuted : forall erf obs lim mstar maxmag limmag rsig bright radbins rows gs, rsig <= 0 ->
  gs = gen_sample erf rsig bright radbins rows -> depth_known gs -> limit_rule limmag gs lim ->
  exists c v, maskc erf obs mstar maxmag limmag gs = Ok c /\ List.length c = List.length radbins /\ forall x, In x c -> x = v.
Proof.
  intros erf obs lim mstar maxmag limmag rsig bright radbins rows gs Hs Hgs Hd Hr.
  destruct (maskc_value erf obs lim mstar maxmag limmag rsig bright radbins rows gs Hgs Hd Hr) as (c & Hc & Hlen & H).
  exists c, (1 - total_of (fun g => seen erf obs lim mstar maxmag g * 1) gs / nin_of erf rsig bright 0 gs).
  split; [exact Hc|]. split; [exact Hlen|]. intros x Hx. apply In_nth_error in Hx. destruct Hx as (j & Hj).
  assert (Hlt : (j < List.length radbins)%nat) by (rewrite <- Hlen; apply nth_error_Some; congruence).
  destruct (nth_error radbins j) as [rad|] eqn:Er; [|apply nth_error_None in Er; lia].
  rewrite (H j rad Er) in Hj. injection Hj as <-.
  assert (E1 : nin_of erf rsig bright rad gs = nin_of erf rsig bright 0 gs)
    by (unfold nin_of; f_equal; apply map_ext; intros g; unfold theta_rad; rewrite Rleb_true by exact Hs; reflexivity).
  rewrite E1. f_equal. f_equal. apply total_ext. intros g _. unfold theta_rad. rewrite Rleb_true by exact Hs. reflexivity.
Qed.
Print Assumptions C79_hard_edge_refuted.

(** the hypotheses of the C79 theorems hold of a sample with a seen, a masked and a faint galaxy *)
Example C79_example :
  let gs := gen_sample step_erf (1/10) 0 [1; 2] [mg (1/2) (-1) true; mg (1/2) (-2) false; mg 3 4 true] in
  depth_known gs /\ limit_rule 22 gs (fun _ => 22) /\ erf_bounded step_erf /\ expected step_erf (1/10) 0 1 gs = 2.
Proof.
  intros gs. split.
  { split; [eexists; eexists; split; [reflexivity|cbn; lra]|]. intros g Hg. unfold gs, gen_sample in Hg. cbn [map] in Hg.
    destruct Hg as [<-|[<-|[<-|[]]]]; cbn; lra. }
  split. { left. split; [|reflexivity]. eexists; eexists. split; [reflexivity|]. left. cbn. lra. }
  split; [apply step_erf_bounded|].
  assert (0 < sqrt 2) by (apply sqrt_lt_R0; lra).
  assert (Hi : forall m mk th nin, inside step_erf (1/10) 1 (set_radial (mg (1/2) m mk) th nin) = 1).
  { intros. unfold inside, step_erf. cbn [m_r set_radial mg].
    destruct (Rlt_dec ((1 - 1/2) / (sqrt 2 * (1/10))) 0) as [h|h]; [|lra].
    exfalso. assert (0 < (1 - 1/2) / (sqrt 2 * (1/10))) by (apply Rdiv_lt_0_compat; lra). lra. }
  unfold expected, gs, gen_sample. cbn [map total_of m_m set_radial mg].
  destruct (Rlt_dec (-1) 0); [|lra]. destruct (Rlt_dec (-2) 0); [|lra]. destruct (Rlt_dec 4 0); [lra|].
  rewrite !Hi. ring.
Qed.

(** C80.  Mask part of the richness error: with v the expected fraction of members missed per unit richness, it is
    lambda^2 / sum(pmem^2) * sqrt(v (1-v)) / (1 - beta gamma), a real non-negative number for richness at least 1. *)
Theorem C80_error : forall bkg limmag mstar beta gamma lam rlam cval gs pmem,
  1 <= lam -> (forall g, In g gs -> bkg_ok bkg limmag mstar lam rlam g) -> beta * gamma < 1 -> 0 < sumsq pmem ->
  1/100 <= cval -> (exists g, In g gs /\ within rlam g /\ missed limmag mstar g) ->
  let v := p_missed bkg limmag mstar lam rlam gs / n_within rlam gs / lam in
  0 <= v <= 1 /\
  calc_lambdacerr bkg limmag mstar beta gamma lam rlam cval gs pmem =
    lam ^ 2 / sumsq pmem * sqrt (v * (1 - v)) / (1 - beta * gamma) /\
  0 <= calc_lambdacerr bkg limmag mstar beta gamma lam rlam cval gs pmem.
Proof. exact cerr_value. Qed.
Print Assumptions C80_error.
Theorem C80_nothing_missed : forall bkg limmag mstar beta gamma lam rlam cval gs pmem,
  cval < 1/100 \/ (forall g, In g gs -> within rlam g -> ~ missed limmag mstar g) ->
  calc_lambdacerr bkg limmag mstar beta gamma lam rlam cval gs pmem = 0.
Proof. exact cerr_zero. Qed.
Print Assumptions C80_nothing_missed.

(** C80.  The richness solver and the random points evaluate the mask fraction of the fitted coefficients ... *)
Theorem C80_solver_fraction : forall e r cp, cp = (e_c0 e, e_c1 e, e_c2 e, e_c3 e) ->
  Solver.cval e r = Rmax 0 (mask_fraction cp r) /\ cval_zmask cp r = mask_fraction cp r.
Proof. intros e r cp ->. unfold Solver.cval, cval_zmask, mask_fraction. split; [f_equal|]; ring. Qed.
Print Assumptions C80_solver_fraction.
(** ... but the error evaluates them in the opposite order: it gets the right value exactly when the coefficients
    satisfy one equation (for example at radius 1), ... *)
Theorem C80_fraction_partial : forall c0 c1 c2 c3 r, 0 < mask_fraction (c0, c1, c2, c3) r ->
  (cval_err (c0, c1, c2, c3) r = mask_fraction (c0, c1, c2, c3) r <->
   (c0 - c3) * (r ^ 3 - 1) + (c1 - c2) * (r ^ 2 - r) = 0).
Proof. intros c0 c1 c2 c3 r H. exact (fraction_iff (c0, c1, c2, c3) r H). Qed.
Print Assumptions C80_fraction_partial.
(** ... so at every other radius a mask fraction of one half can be taken for zero and its error dropped. *)
Theorem C80_fraction_refuted : forall r, 0 < r -> r <> 1 -> exists cp,
  mask_fraction cp r = 1/2 /\
  forall bkg limmag mstar beta gamma lam gs pmem,
    calc_lambdacerr bkg limmag mstar beta gamma lam r (cval_err cp r) gs pmem = 0.
Proof.
  intros r H0 H1. destruct (fraction_lost r H0 H1) as (cp & Hf & Hc). exists cp. split; [exact Hf|].
  intros. apply cerr_zero. left. rewrite Hc. lra.
Qed.
Print Assumptions C80_fraction_refuted.

(** a case with a positive error: one of two mask galaxies is masked *)
Example C80_example : let gs := [mg (1/2) (-1) true; mg (1/2) (-2) false] in
  let bkg := fun _ _ _ => Bval 1 in
  (forall g, In g gs -> bkg_ok bkg 22 19 20 1 g) /\ (exists g, In g gs /\ within 1 g /\ missed 22 19 g) /\
  n_within 1 gs = 2 /\ 0 < p_missed bkg 22 19 20 1 gs.
Proof.
  intros gs bkg. split.
  { intros g [<-|[<-|[]]]; unfold bkg_ok, bkg; cbn; repeat split; try lra; intros x y z b [= <-]; lra. }
  split. { exists (mg (1/2) (-2) false). split; [right; left; reflexivity|]. split; [unfold within; cbn; lra|right; reflexivity]. }
  unfold n_within, p_missed, gs. cbn [total_of m_r mg m_m m_mark].
  destruct (Rlt_dec (1/2) 1); [|lra]. destruct (Rlt_dec 22 (19 + -1)); [lra|]. destruct (Rlt_dec 22 (19 + -2)); [lra|].
  split; [ring|]. unfold member_prob, pout, bkg. rewrite norm_eq. cbn [m_cwt m_nfw m_lumwt mg].
  assert (0 < nfwnorm 1) by (unfold nfwnorm; cbv zeta; apply exp_pos).
  assert (0 < 20 * (1 * (nfwnorm 1 * 1) * 1) / (20 * (1 * (nfwnorm 1 * 1) * 1) + 1)) by (apply Rdiv_lt_0_compat; lra). lra.
Qed.

(** C81.  For a cluster solved exactly (sum of memberships + richness * mask fraction = richness), the scale value is
    1 / (1 - mask fraction) ... *)
Theorem C81_cluster_scale : forall lam sum cp r, 0 < lam -> 0 < sum ->
  sum + lam * Rmax 0 (mask_fraction cp r) = lam ->
  Rabs (lam / sum) = 1 / (1 - Rmax 0 (mask_fraction cp r)).
Proof.
  intros lam sum cp r Hl Hs H. rewrite Rabs_pos_eq by (apply Rlt_le, Rdiv_lt_0_compat; assumption).
  assert (E : sum = lam * (1 - Rmax 0 (mask_fraction cp r))) by lra.
  assert (Hne : 1 - Rmax 0 (mask_fraction cp r) <> 0).
  { intros E0. rewrite E0, Rmult_0_r in E. lra. }
  rewrite E. field. split; [exact Hne|lra].
Qed.
Print Assumptions C81_cluster_scale.
(** ... and a random point at the same place and radius gets exactly that value, unless the fitted mask fraction is
    negative. *)
Theorem C81_random_scale_partial : forall cp r, mask_fraction cp r < 1 ->
  (zmask_scaleval cp r = 1 / (1 - Rmax 0 (mask_fraction cp r)) <-> 0 <= mask_fraction cp r).
Proof.
  intros cp r H1. unfold zmask_scaleval.
  assert (E : cval_zmask cp r = mask_fraction cp r) by (destruct cp as [[[c0 c1] c2] c3]; reflexivity). rewrite E.
  unfold Rmax. destruct (Rle_dec 0 (mask_fraction cp r)) as [h|h]; [tauto|]. split; [|lra].
  intros Eq. exfalso. unfold Rdiv in Eq. rewrite !Rmult_1_l, Rminus_0_r, Rinv_1 in Eq.
  assert (/ (1 - mask_fraction cp r) < 1); [|lra].
  rewrite <- Rinv_1. apply Rinv_lt_contravar; lra.
Qed.
Print Assumptions C81_random_scale_partial.
(** Finding: an unmasked field whose fit is slightly negative gives randoms a scale value below one, a fraction
    above one a negative scale value. *)
Theorem C81_random_scale_refuted : exists cp r, mask_fraction cp r < 0 /\ zmask_scaleval cp r < 1 /\
  exists cp', 1 < mask_fraction cp' r /\ zmask_scaleval cp' r < 0.
Proof.
  exists (0, 0, 0, -1/100), 1. unfold zmask_scaleval, cval_zmask, mask_fraction. split; [lra|]. split.
  - replace (1 / (1 - (0 * 1 ^ 3 + 0 * 1 ^ 2 + 0 * 1 + -1/100))) with (100/101) by field. lra.
  - exists (0, 0, 0, 2). split; [lra|].
    replace (1 / (1 - (0 * 1 ^ 3 + 0 * 1 ^ 2 + 0 * 1 + 2))) with (-1) by field. lra.
Qed.
Print Assumptions C81_random_scale_refuted.
Example C81_example : mask_fraction (0, 0, 1/10, 1/10) 1 = 1/5 /\ zmask_scaleval (0, 0, 1/10, 1/10) 1 = 5/4.
Proof. unfold zmask_scaleval, cval_zmask, mask_fraction. split; field. Qed.
