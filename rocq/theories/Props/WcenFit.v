(** C152, C153: the costs of the centering calibration; the normal curve through a histogram. *)
From Coq Require Import Reals Lra.
From Verif.Base Require Import Py PyLemmas.
From Verif.Model Require Import WcenFit.
From Verif.Spec Require Import WcenFit.
From Verif.Proofs Require Import WcenFit.
From Coq Require Import Lia List. Import ListNotations.
Local Open Scope R_scope.

(** Foreground: the cost of a positive width is minus the logarithm of the likelihood of the ln w of the clusters, each normal with
    the width times its scale; a width of 0 or less has no cost, so is never preferred. *)
Theorem C152_foreground m s cs : (forall c, In c cs -> 0 < fg_l c) -> cs <> [] ->
  (0 < s -> cost_fg m s cs = Some (- total (map (fun c => ln (density (ln (fg_w c)) m (s * fg_l c))) cs))) /\ (s <= 0 -> cost_fg m s cs = None).
Proof.
  intros S N. assert (S' : scales (pts cs)) by (intros p I; apply in_map_iff in I; destruct I as (c & <- & I); apply S, I). split.
  - intros P. rewrite fg_cost, <- fg_terms by assumption. f_equal. rewrite <- (Rmult_1_l (total (map (fun c => ln _) cs))), Ropp_mult_distr_l, <- total_scale. apply total_ext. intros; ring.
  - intros P. apply fg_none; assumption.
Qed.
Print Assumptions C152_foreground.
(** The cost is smallest at the weighted mean and the scaled scatter of ln w, if there is any scatter. *)
Theorem C152_best cs : let l := map (fun c => (ln (fg_w c), fg_l c)) cs in (forall c, In c cs -> 0 < fg_l c) -> cs <> [] -> 0 < wvar l ->
  exists t, cost_fg (wmean l) (sqrt (wvar l)) cs = Some t /\ forall m s u, cost_fg m s cs = Some u -> t <= u.
Proof.
  intros l S N V. assert (S' : scales (pts cs)) by (intros p I; apply in_map_iff in I; destruct I as (c & <- & I); apply S, I). assert (N' : l <> []) by (destruct cs; [contradiction|discriminate]).
  exists (fgval l (wmean l) (sqrt (wvar l))). assert (W : 0 < sqrt (wvar l)) by (apply sqrt_lt_R0, V). split; [apply fg_cost; assumption|]. intros m s u E.
  destruct (Rlt_dec 0 s) as [P|P]; [|rewrite fg_none in E by (try assumption; lra); discriminate]. rewrite (fg_cost m s cs P S') in E. assert (Eu : u = fgval l m s) by (unfold l; fold (pts cs); congruence). subst u.
  unfold fgval. pose proof (len_pos l N') as L. pose proof (wvar_Qm l N') as Q.
  assert (Q0 : 0 < Qm l (wmean l)) by (rewrite Q; apply Rmult_lt_0_compat; assumption). pose proof (width_min (INR (length l)) (Qm l (wmean l)) s L Q0 P) as X.
  assert (EV : Qm l (wmean l) / INR (length l) = wvar l) by (rewrite Q; field; lra). rewrite EV in X.
  pose proof (Qm_min l m N' S') as M. assert (Y : Qm l (wmean l) / (2 * s ^ 2) <= Qm l m / (2 * s ^ 2)).
  { apply Rmult_le_compat_r; [|exact M]. apply Rlt_le, Rinv_0_lt_compat. pose proof (pow_lt s 2 P). lra. } lra.
Qed.
Print Assumptions C152_best.
(** Without scatter (one random cluster, say) the cost has no minimum: it falls below any number as the width goes to 0. *)
Theorem C152_no_minimum cs : let l := map (fun c => (ln (fg_w c), fg_l c)) cs in (forall c, In c cs -> 0 < fg_l c) -> cs <> [] -> wvar l = 0 ->
  forall b, exists s t, 0 < s /\ cost_fg (wmean l) s cs = Some t /\ t < b.
Proof.
  intros l S N V b. assert (S' : scales (pts cs)) by (intros p I; apply in_map_iff in I; destruct I as (c & <- & I); apply S, I). assert (N' : l <> []) by (destruct cs; [contradiction|discriminate]).
  pose proof (len_pos l N') as L. set (k := total (map (fun p => ln (snd p)) l) + INR (length l) * ln (sqrt (2 * PI))). set (y := (b - 1 - k) / INR (length l)). exists (exp y), (fgval l (wmean l) (exp y)).
  split; [apply exp_pos|]. split; [apply fg_cost; [apply exp_pos|exact S']|]. unfold fgval. rewrite wvar_Qm, V, ln_exp by exact N'. unfold Rdiv. rewrite Rmult_0_r, Rmult_0_l.
  assert (E : INR (length l) * y = b - 1 - k) by (unfold y; field; lra). unfold k in E. lra.
Qed.
Print Assumptions C152_no_minimum.
(** Magnitudes: the cost is minus the sum of the logarithms of the densities of the three kinds of centres, none taken below 0.00001. *)
Theorem C152_magnitude d0 d1 s cs : 0 < s ->
  cost_c d0 d1 s cs = Some (- total (map (fun c => ln (Rmax (1 / 100000)
    (c_pcen c * density (c_mag c) (c_mstar c + d0 + d1 * c_lam c) s * c_cwt c + c_psat c * c_phi1 c * c_cwt c + (1 - c_pcen c - c_psat c) * c_bkg c))) cs)).
Proof.
  intros P. unfold cost_c. rewrite (osum_map _ (fun c => -1 * ln (Rmax (1 / 100000) (c_pcen c * density (c_mag c) (c_mstar c + d0 + d1 * c_lam c) s * c_cwt c + c_psat c * c_phi1 c * c_cwt c + (1 - c_pcen c - c_psat c) * c_bkg c)))).
  - cbn [penalty]. destruct (Rlt_dec s 0); [lra|]. rewrite total_scale. f_equal. ring.
  - intros c _. unfold rho. rewrite normal_density by lra. cbv zeta. unfold Rmax. destruct (Rle_dec _ _), (Rlt_dec _ _); rewrite neglog_pos by lra; f_equal; try ring; exfalso; lra.
Qed.
Print Assumptions C152_magnitude.
(** Magnitudes: every choice of parameters has a finite cost, of at most -ln(0.00001) for each cluster, and 1000 more for a width below
    0. *)
Theorem C152_magnitude_finite d0 d1 s cs : exists t, cost_c d0 d1 s cs = Some t /\ t <= INR (length cs) * - ln (1 / 100000) + 1000 /\
  (0 <= s -> t <= INR (length cs) * - ln (1 / 100000)).
Proof.
  assert (R : forall c, 1 / 100000 <= rho d0 d1 s c). { intros c. unfold rho. destruct (normal _ _ _); [|lra]. cbv zeta. destruct (Rlt_dec _ _); lra. }
  unfold cost_c. rewrite (osum_map _ (fun c => - ln (rho d0 d1 s c))) by (intros c _; apply neglog_pos; pose proof (R c); lra). cbn [penalty]. eexists. split; [reflexivity|].
  assert (T : total (map (fun c => - ln (rho d0 d1 s c)) cs) <= INR (length cs) * - ln (1 / 100000)).
  { rewrite <- (total_const (- ln (1 / 100000)) cs). induction cs as [|c cs IH]; cbn; [lra|]. unfold total in IH. pose proof (R c) as Rc.
    assert (ln (1 / 100000) <= ln (rho d0 d1 s c)) by (destruct Rc as [Rc|Rc]; [left; apply ln_increasing; lra|right; f_equal; exact Rc]). lra. }
  destruct (Rlt_dec s 0); split; try lra; intros; lra.
Qed.
Print Assumptions C152_magnitude_finite.
(** ... and a width below 0 costs at least 1000 more than the same width above it. *)
Theorem C152_magnitude_sign d0 d1 s cs t u : 0 < s -> (forall c, In c cs -> 0 <= c_pcen c /\ 0 <= c_cwt c) -> cost_c d0 d1 s cs = Some t -> cost_c d0 d1 (- s) cs = Some u -> t + 1000 <= u.
Proof.
  intros P H T U. unfold cost_c in *.
  destruct (osum (map (fun c => neglog (Some (rho d0 d1 (- s) c))) cs)) as [u0|] eqn:U0; [|discriminate].
  destruct (osum_le (fun c => neglog (Some (rho d0 d1 (- s) c))) (fun c => neglog (Some (rho d0 d1 s c))) cs u0) with (2 := U0) as (t0 & T0 & L).
  { intros c I a. apply neglog_mono. unfold rho. rewrite !normal_density by lra. rewrite density_neg by lra. cbv zeta. destruct (H c I) as [H1 H2]. pose proof (density_pos (c_mag c) (c_mstar c + d0 + d1 * c_lam c) s P) as D.
    assert (X : 0 <= c_pcen c * density (c_mag c) (c_mstar c + d0 + d1 * c_lam c) s * c_cwt c) by (apply Rmult_le_pos; [apply Rmult_le_pos; lra|lra]).
    rewrite Ropp_mult_distr_r_reverse, Ropp_mult_distr_l_reverse. destruct (Rlt_dec _ _), (Rlt_dec _ _); lra. }
  rewrite T0 in T. cbn [penalty] in T, U. destruct (Rlt_dec s 0); [lra|]. destruct (Rlt_dec (- s) 0); [|lra]. assert (t = t0) by congruence. assert (u = u0 + 1000) by congruence. lra.
Qed.
Print Assumptions C152_magnitude_sign.
(** Central galaxies: the cost of a positive width is minus the logarithm of the likelihood of the mixture of central, satellite and
    foreground; it is defined if every cluster may have its central galaxy. *)
Theorem C152_central m s cs : 0 < s -> (forall c, In c cs -> 0 < w_l c /\ 0 < w_pcen c /\ 0 <= w_psat c /\ w_pcen c + w_psat c <= 1 /\ 0 <= w_ffg c /\ 0 <= w_fsat c) ->
  cost_cw m s cs = Some (- total (map (fun c => ln (w_pcen c * density (ln (w_w c)) m (s * w_l c) + w_psat c * w_fsat c + (1 - w_pcen c - w_psat c) * w_ffg c)) cs)).
Proof.
  intros P H. unfold cost_cw. rewrite (osum_map _ (fun c => -1 * ln (w_pcen c * density (ln (w_w c)) m (s * w_l c) + w_psat c * w_fsat c + (1 - w_pcen c - w_psat c) * w_ffg c))).
  - cbn [penalty]. destruct (Rlt_dec s 0); [lra|]. rewrite total_scale. f_equal. ring.
  - intros c I. destruct (H c I) as (H1 & H2 & H3 & H4 & H5 & H6). assert (X : 0 < s * w_l c) by (apply Rmult_lt_0_compat; assumption). unfold mixed. rewrite normal_density by lra.
    rewrite neglog_pos; [f_equal; ring|]. pose proof (Rmult_lt_0_compat _ _ H2 (density_pos (ln (w_w c)) m _ X)). pose proof (Rmult_le_pos _ _ H3 H6). assert (0 <= (1 - w_pcen c - w_psat c) * w_ffg c) by (apply Rmult_le_pos; lra). lra.
Qed.
Print Assumptions C152_central.
(** ... and a width below 0, where it has a cost at all, costs at least 1000 more than the same width above it. *)
Theorem C152_central_sign m s cs u : 0 < s -> (forall c, In c cs -> 0 < w_l c /\ 0 <= w_pcen c) -> cost_cw m (- s) cs = Some u ->
  exists t, cost_cw m s cs = Some t /\ t + 1000 <= u.
Proof.
  intros P H U. unfold cost_cw in *. destruct (osum (map (fun c => neglog (mixed m (- s) c)) cs)) as [u0|] eqn:U0; [|discriminate].
  destruct (osum_le (fun c => neglog (mixed m (- s) c)) (fun c => neglog (mixed m s c)) cs u0) with (2 := U0) as (t0 & T0 & L).
  { intros c I a. destruct (H c I) as [H1 H2]. assert (X : 0 < s * w_l c) by (apply Rmult_lt_0_compat; assumption). unfold mixed. replace (- s * w_l c) with (- (s * w_l c)) by ring. rewrite !normal_density by lra. rewrite density_neg by lra.
    apply neglog_mono. pose proof (density_pos (ln (w_w c)) m _ X) as D. pose proof (Rmult_le_pos _ _ H2 (Rlt_le _ _ D)). rewrite Ropp_mult_distr_r_reverse. lra. }
  rewrite T0. cbn [penalty] in *. destruct (Rlt_dec s 0); [lra|]. destruct (Rlt_dec (- s) 0); [|lra]. exists t0. split; [reflexivity|]. assert (u = u0 + 1000) by congruence. lra.
Qed.
Print Assumptions C152_central_sign.
Example C152_example : exists cs : list fgcl, cs <> [] /\ (forall c, In c cs -> 0 < fg_l c) /\ 0 < wvar (map (fun c => (ln (fg_w c), fg_l c)) cs).
Proof.
  exists [mkFg 1 1; mkFg (exp 2) 1]. split; [discriminate|]. split; [intros c [<-|[<-|[]]]; cbn; lra|]. unfold wvar, wmean, total. cbn [map fold_right length fst snd fg_w fg_l]. rewrite ln_1, ln_exp.
  replace (INR 2) with 2 by (cbn; lra). field_simplify. lra.
Qed.
Example C152_example_single : wvar [(ln 5, 1 / 2)] = 0.
Proof. unfold wvar, wmean, total. cbn [map fold_right length fst snd]. replace (INR 1) with 1 by (cbn; lra). field. Qed.

(** The curve is the one fitted, or one with the median and the standard deviation if there is no fit, for a positive width and bins
    within five widths of the mean on both sides.  (Missing: negative widths.) *)
Theorem C153_curve_partial fit n med std centers a m s : match fit with Some p => p | None => (n, med, std) end = (a, m, s) ->
  (exists x, In x centers /\ m - 5 * s < x) -> (exists x, In x centers /\ x < m + 5 * s) -> histo_gauss fit n med std centers = Ok (a, m, s).
Proof.
  intros E (x & Ix & Lx) (y & Iy & Ly). unfold histo_gauss. rewrite E.
  destruct (filter (fun x => if Rlt_dec (m - 5 * s) x then true else false) centers) eqn:F.
  { exfalso. assert (J : In x []) by (rewrite <- F; apply filter_In; split; [exact Ix|]; destruct (Rlt_dec _ _); [reflexivity|contradiction]). destruct J. }
  destruct (filter (fun x => if Rlt_dec x (m + 5 * s) then true else false) centers) eqn:G; [|reflexivity].
  exfalso. assert (J : In y []) by (rewrite <- G; apply filter_In; split; [exact Iy|]; destruct (Rlt_dec _ _); [reflexivity|contradiction]). destruct J.
Qed.
Print Assumptions C153_curve_partial.
(** The curve is returned if and only if a bin lies above its lower end and one below its upper end; else IndexError. *)
Theorem C153_range fit n med std centers a m s : match fit with Some p => p | None => (n, med, std) end = (a, m, s) ->
  (forall x, In x centers -> x <= m - 5 * s) \/ (forall x, In x centers -> m + 5 * s <= x) -> histo_gauss fit n med std centers = Err IndexError.
Proof.
  intros E H. unfold histo_gauss. rewrite E. destruct (filter (fun x => if Rlt_dec (m - 5 * s) x then true else false) centers) as [|y l] eqn:F; [reflexivity|].
  destruct (filter (fun x => if Rlt_dec x (m + 5 * s) then true else false) centers) as [|z k] eqn:G; [reflexivity|]. exfalso.
  assert (Y : In y (y :: l)) by (left; reflexivity). assert (Z : In z (z :: k)) by (left; reflexivity). rewrite <- F in Y. rewrite <- G in Z. apply filter_In in Y, Z. destruct Y as [Y Y'], Z as [Z Z'].
  destruct (Rlt_dec _ _) in Y'; [|discriminate]. destruct (Rlt_dec _ _) in Z'; [|discriminate]. destruct H as [H|H]; [specialize (H y Y)|specialize (H z Z)]; lra.
Qed.
Print Assumptions C153_range.
(** Finding: a curve with the opposite width is the same curve, so the fit may end at either; at the negative one the call fails with
    IndexError if no bin lies beyond five widths on either side, as is usual, and otherwise it returns a negative width. *)
Theorem C153_sign_refuted a m s n med std centers : 0 < s -> (forall x, gauss a m (- s) x = gauss a m s x) /\
  ((forall x, In x centers -> m - 5 * s <= x <= m + 5 * s) -> histo_gauss (Some (a, m, - s)) n med std centers = Err IndexError) /\
  (forall c, histo_gauss (Some (a, m, - s)) n med std centers = Ok c -> snd c < 0).
Proof.
  intros P. split; [|split].
  - intros x. unfold gauss. replace ((- s) ^ 2) with (s ^ 2) by ring. reflexivity.
  - intros H. unfold histo_gauss. assert (F : filter (fun x => if Rlt_dec (m - 5 * - s) x then true else false) centers = []).
    { induction centers as [|c centers IH]; [reflexivity|]. cbn [filter]. destruct (Rlt_dec _ _) as [L|]; [pose proof (H c (or_introl eq_refl)); lra|]. apply IH. intros x I. apply H. right. exact I. }
    rewrite F. reflexivity.
  - intros c. unfold histo_gauss. destruct (filter _ centers); [discriminate|]. destruct (filter _ centers); [discriminate|]. intros E. assert (Ec : c = (a, m, - s)) by congruence. subst c. cbn. lra.
Qed.
Print Assumptions C153_sign_refuted.
Example C153_example : histo_gauss (Some (10, 0, 1)) 10 0 1 [-1; 0; 1] = Ok (10, 0, 1) /\ histo_gauss None 3 (1 / 2) 1 [-1; 0; 1] = Ok (3, 1 / 2, 1) /\
  histo_gauss (Some (10, 0, -1)) 10 0 1 [-1; 0; 1] = Err IndexError.
Proof.
  split; [|split].
  - apply C153_curve_partial; [reflexivity|exists 0; split; [right; left; reflexivity|lra]|exists 0; split; [right; left; reflexivity|lra]].
  - apply C153_curve_partial; [reflexivity|exists 0; split; [right; left; reflexivity|lra]|exists 0; split; [right; left; reflexivity|lra]].
  - change (-1) with (- (1)) at 1. apply C153_sign_refuted; [lra|]. intros x [<-|[<-|[<-|[]]]]; lra.
Qed.
(** With a width of exactly 0 every cluster counts with the floor. *)
Theorem C152_magnitude_zero d0 d1 cs : cost_c d0 d1 0 cs = Some (INR (length cs) * - ln (1 / 100000)).
Proof.
  unfold cost_c. rewrite (osum_map _ (fun _ => - ln (1 / 100000))).
  - cbn [penalty]. destruct (Rlt_dec 0 0); [lra|]. f_equal. rewrite total_const. ring.
  - intros c _. unfold rho, normal. destruct (Req_EM_T 0 0); [|lra]. apply neglog_pos. lra.
Qed.
Print Assumptions C152_magnitude_zero.
(** The curve is the normal density times the area under it; its height is the first parameter. *)
Theorem C153_gauss a m s x : 0 < s -> gauss a m s x = a * (sqrt (2 * PI) * s) * density x m s /\ gauss a m s m = a.
Proof.
  intros P. assert (Q : 0 < sqrt (2 * PI)) by (apply sqrt_lt_R0; pose proof PI_RGT_0; lra). unfold gauss, density. split.
  - replace (- (x - m) ^ 2 / (2 * s ^ 2)) with (- (((x - m) / s) ^ 2 / 2)) by (field; lra). field. split; lra.
  - replace (- (m - m) ^ 2 / (2 * s ^ 2)) with 0 by (field; lra). rewrite exp_0. ring.
Qed.
Print Assumptions C153_gauss.
