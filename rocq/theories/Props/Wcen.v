(** C113-C116: the calibration of the centering model. *)
From Coq Require Import Reals QArith String Lra Permutation Sorted.
From Verif.Base Require Import Py PyLemmas.
From Verif.Model Require Import BkgGen Maskgals Wcen.
From Verif.Proofs Require Import Maskgals RedCal Radii.
From Coq Require Import Reals Lra Lia List. Import ListNotations.
Local Open Scope R_scope.

(** * C113 *)
(** C113: the values read back from a file are those written, except for one: *)
Theorem C113_values_partial : forall f c p, f_phi f = Some p ->
  let c' := set_wcen_vals (Some f) c in
  w_delta0 c' = f_delta0 f /\ w_delta1 c' = f_delta1 f /\ w_sigma_m c' = f_sigma_m f /\ w_pivot c' = f_pivot f /\
  w_fg c' = f_fg f /\ w_sat c' = f_sat f /\ w_cen c' = f_cen f /\
  p_m (w_phi c') = p_m p /\ p_sig_m (w_phi c') = p_sig_m p /\ p_sig_slope (w_phi c') = p_sig_slope p.
Proof. intros f c p E. cbn. rewrite E. repeat split. Qed.
Print Assumptions C113_values_partial.
(** Finding: the slope with richness of the brightest satellite's magnitude is read from the column of its mean. *)
Theorem C113_slope_refuted : forall f c p, f_phi f = Some p -> p_slope (w_phi (set_wcen_vals (Some f) c)) = p_m p.
Proof. intros f c p E. cbn. rewrite E. reflexivity. Qed.
Print Assumptions C113_slope_refuted.
(** Without a file the values stay; an older file without the columns leaves those of the brightest satellite. *)
Theorem C113_absent : forall c f, set_wcen_vals None c = c /\ (f_phi f = None -> w_phi (set_wcen_vals (Some f) c) = w_phi c).
Proof. intros c f. split; [reflexivity|]. intros E. cbn. rewrite E. reflexivity. Qed.
Print Assumptions C113_absent.
(** The file of the first iteration has the Monte Carlo's values, if none are configured. *)
Theorem C113_first : forall mc fitw fitc fitcw rand randsat c, p_m (w_phi c) < - 1000 ->
  exists c' f, iterations mc fitw fitc fitcw rand randsat 1 c = (c', [f]) /\ f_phi f = Some (mc 1%nat).
Proof.
  intros mc fitw fitc fitcw rand randsat c H. cbn [iterations]. unfold iteration, run. cbn [Nat.eqb fst snd].
  destruct (fitc 1%nat (phi_used (mc 1%nat) c) _) as [[d0 d1] s]. eexists. eexists. split; [reflexivity|]. cbn. unfold phi_used. rewrite (proj2 (Rltb_iff _ _) H). reflexivity.
Qed.
Print Assumptions C113_first.
(** Finding: so that all later iterations are calibrated, and their files written, with the mean in place of the slope. *)
Theorem C113_later_refuted : forall mc fitw fitc fitcw rand randsat c n, p_m (w_phi c) < - 1000 -> - 1000 <= p_m (mc 1%nat) ->
  exists c' fs, iterations mc fitw fitc fitcw rand randsat (S n) c = (c', fs) /\ List.length fs = S n /\
  forall k f, nth_error fs (S k) = Some f -> f_phi f = Some (mkPhi (p_m (mc 1%nat)) (p_m (mc 1%nat)) (p_sig_m (mc 1%nat)) (p_sig_slope (mc 1%nat))).
Proof.
  intros mc fitw fitc fitcw rand randsat c n Hc Hm. set (P := mkPhi (p_m (mc 1%nat)) (p_m (mc 1%nat)) (p_sig_m (mc 1%nat)) (p_sig_slope (mc 1%nat))).
  assert (G : exists c' fs, iterations mc fitw fitc fitcw rand randsat (S n) c = (c', fs) /\ List.length fs = S n /\ w_phi c' = P /\
    forall k f, nth_error fs (S k) = Some f -> f_phi f = Some P).
  { induction n as [|n IH].
    - cbn [iterations]. unfold iteration, run. cbn [Nat.eqb fst snd]. destruct (fitc 1%nat (phi_used (mc 1%nat) c) _) as [[d0 d1] s]. eexists. eexists. split; [reflexivity|].
      split; [reflexivity|]. split; [cbn; unfold phi_used; rewrite (proj2 (Rltb_iff _ _) Hc); reflexivity|]. intros [|k] f E; discriminate.
    - destruct IH as (c' & fs & E & L & W & K). remember (S n) as m. cbn [iterations]. rewrite E. unfold iteration, run. subst m. cbn [Nat.eqb fst snd].
      change (random_fits fitw None None c') with c'. assert (U : phi_used (mc (S (S n))) c' = P) by (unfold phi_used; rewrite W; cbn [p_m P]; rewrite (proj2 (Rltb_not _ _) Hm); reflexivity).
      rewrite U. destruct (fitc (S (S n)) P c') as [[d0 d1] s]. eexists. eexists. split; [reflexivity|]. rewrite app_length, L. cbn [List.length]. split; [lia|]. split; [reflexivity|].
      intros k f Q. destruct (Nat.lt_ge_cases (S k) (List.length fs)) as [A|A]; [rewrite nth_error_app1 in Q by exact A; exact (K k f Q)|].
      rewrite nth_error_app2 in Q by exact A. destruct (S k - List.length fs)%nat as [|[|j]]; try discriminate. cbn in Q. injection Q as <-. reflexivity. }
  destruct G as (c' & fs & A & B & _ & D). exists c', fs. auto.
Qed.
Print Assumptions C113_later_refuted.

(** * C114 *)
(** C114: the calibration starts unless, in the first iteration, a random catalog is missing whose result is not configured; *)
Theorem C114_start : forall i rand randsat c,
  let missing := i = 1%nat /\ (rand = None /\ snd (w_fg c) < 0 \/ randsat = None /\ snd (w_sat c) < 0) in
  (missing -> calibrator i rand randsat c = Err RuntimeError) /\ (~ missing -> calibrator i rand randsat c = Ok tt).
Proof.
  intros i rand randsat c missing. unfold missing, calibrator. destruct (Nat.eqb i 1) eqn:E; [apply Nat.eqb_eq in E|apply Nat.eqb_neq in E; split; [intros [A _]; contradiction|reflexivity]].
  destruct rand as [r|], randsat as [q|].
  - split; [intros [_ [[A _]|[A _]]]; discriminate|reflexivity].
  - destruct (Rltb (snd (w_sat c)) 0) eqn:S; split; intros H; auto.
    + exfalso. apply H. split; [exact E|]. right. split; [reflexivity|]. apply Rltb_iff, S.
    + apply Rltb_not in S. destruct H as [_ [[A _]|[_ A]]]; [discriminate|lra].
  - destruct (Rltb (snd (w_fg c)) 0) eqn:S; split; intros H; auto.
    + exfalso. apply H. split; [exact E|]. left. split; [reflexivity|]. apply Rltb_iff, S.
    + apply Rltb_not in S. destruct H as [_ [[_ A]|[A _]]]; [lra|discriminate].
  - destruct (Rltb (snd (w_fg c)) 0) eqn:S; [|destruct (Rltb (snd (w_sat c)) 0) eqn:T]; split; intros H; auto.
    + exfalso. apply H. split; [exact E|]. left. split; [reflexivity|]. apply Rltb_iff, S.
    + exfalso. apply H. split; [exact E|]. right. split; [reflexivity|]. apply Rltb_iff, T.
    + apply Rltb_not in S. apply Rltb_not in T. destruct H as [_ [[_ A]|[_ A]]]; lra.
Qed.
Print Assumptions C114_start.
(** the foreground is fitted to the one and the satellites to the other catalog, and nothing else changes; *)
Theorem C114_fits : forall fitw rand randsat c, rand <> randsat ->
  random_fits fitw (Some rand) (Some randsat) c =
  mkW (w_delta0 c) (w_delta1 c) (w_sigma_m c) (w_pivot c) (fitw rand) (fitw randsat) (w_cen c) (w_phi c).
Proof.
  intros fitw rand randsat c N. unfold random_fits. cbn [fold_left random_step]. rewrite String.eqb_refl. destruct (String.eqb randsat rand) eqn:E; [apply String.eqb_eq in E; congruence|]. reflexivity.
Qed.
Print Assumptions C114_fits.
(** what has no catalog keeps its values. *)
Theorem C114_kept : forall fitw f c, random_fits fitw None None c = c /\
  w_sat (random_fits fitw (Some f) None c) = w_sat c /\ w_fg (random_fits fitw (Some f) None c) = fitw f /\
  w_fg (random_fits fitw None (Some f) c) = w_fg c /\ w_sat (random_fits fitw None (Some f) c) = fitw f.
Proof. intros fitw f c. unfold random_fits. cbn [fold_left random_step]. rewrite String.eqb_refl. repeat split. Qed.
Print Assumptions C114_kept.
(** Finding: the catalogs are told apart by their names: the same file for both is taken twice for the foreground, and the satellites
    keep the old values. *)
Theorem C114_same_refuted : forall fitw f c, w_sat (random_fits fitw (Some f) (Some f) c) = w_sat c.
Proof. intros fitw f c. unfold random_fits. cbn [fold_left random_step]. rewrite String.eqb_refl. reflexivity. Qed.
Print Assumptions C114_same_refuted.

(** * C115 *)
(** C115: a trial gives the three brightest of the galaxies drawn, in order, *)
Theorem C115_brightest : forall mag st lam m1 m2 m3, trial mag st lam = Ok (m1, m2, m3) ->
  exists drawn rest, np_take mag (firstn (lam - 1) st) = Ok drawn /\ Permutation (m1 :: m2 :: m3 :: rest) drawn /\
  (m1 <= m2)%Q /\ (m2 <= m3)%Q /\ forall m, In m drawn -> (m1 <= m)%Q /\ (m = m1 \/ (m2 <= m)%Q) .
Proof.
  intros mag st lam m1 m2 m3 H. unfold trial in H. destruct (np_take mag (firstn (lam - 1) st)) as [drawn|x]; cbn [bind] in H; [|discriminate].
  pose proof (sort_perm drawn) as P. pose proof (sort_sorted drawn) as S. destruct (sortQ drawn) as [|a [|b [|c rest]]]; try discriminate. injection H as -> -> ->.
  exists drawn, rest. split; [reflexivity|]. split; [exact P|]. inversion S as [|? ? S1 F1]; subst. inversion S1 as [|? ? S2 F2]; subst.
  split; [inversion F1; assumption|]. split; [inversion F2; assumption|]. intros m Hm. apply (Permutation_in _ (Permutation_sym P)) in Hm. destruct Hm as [<-|Hm]; [split; [apply Qle_refl|left; reflexivity]|].
  rewrite Forall_forall in F1, F2. split; [apply F1, Hm|]. right. destruct Hm as [<-|Hm]; [apply Qle_refl|apply F2, Hm].
Qed.
Print Assumptions C115_brightest.
(** it does so for every richness above three, *)
Theorem C115_succeeds : forall mag st lam, (forall i, In i st -> (i < List.length mag)%nat) -> (4 <= lam)%nat -> (3 <= List.length st)%nat ->
  exists m1 m2 m3, trial mag st lam = Ok (m1, m2, m3).
Proof.
  intros mag st lam Hi Hl Hs.
  assert (T : forall l, (forall i, In i l -> (i < List.length mag)%nat) -> exists r, np_take mag l = Ok r /\ List.length r = List.length l).
  { induction l as [|i l IH]; intros H; cbn; [exists []; auto|]. destruct (nth_error mag i) as [q|] eqn:E; [|apply nth_error_None in E; specialize (H i (or_introl eq_refl)); lia].
    destruct (IH (fun j Hj => H j (or_intror Hj))) as (r & -> & L). exists (q :: r). cbn. split; [reflexivity|lia]. }
  destruct (T (firstn (lam - 1) st)) as (r & E & L); [intros i Hin; apply Hi; rewrite <- (firstn_skipn (lam - 1) st); apply in_or_app; left; exact Hin|].
  unfold trial. rewrite E. cbn [bind]. pose proof (sort_len r) as SL. rewrite L, firstn_length in SL. destruct (sortQ r) as [|a [|b [|c rest]]]; cbn in SL; try lia. eauto.
Qed.
Print Assumptions C115_succeeds.
(** Finding: for richness lambda only lambda - 1 galaxies are drawn. *)
Theorem C115_count_refuted : forall mag st lam drawn, np_take mag (firstn (lam - 1) st) = Ok drawn -> (1 <= lam <= List.length st)%nat ->
  List.length drawn = (lam - 1)%nat /\ trial mag st lam = trial mag (firstn (lam - 1) st) lam.
Proof.
  intros mag st lam drawn E H. split.
  - assert (T : forall l r, np_take mag l = Ok r -> List.length r = List.length l).
    { induction l as [|i l IH]; intros r Q; cbn in Q; [injection Q as <-; reflexivity|]. destruct (nth_error mag i); [|discriminate]. destruct (np_take mag l) as [r'|]; [|discriminate]. cbn in Q. injection Q as <-. cbn. f_equal. apply IH. reflexivity. }
    rewrite (T _ _ E), firstn_length. lia.
  - unfold trial. rewrite firstn_firstn, Nat.min_id. reflexivity.
Qed.
Print Assumptions C115_count_refuted.
Example C115_example : trial [3; 2; 1; 0; 5]%Q [0; 1; 2; 3; 4]%nat 4 = Ok (1, 2, 3)%Q /\ trial [3; 2; 1; 0; 5]%Q [0; 1; 2; 3; 4]%nat 5 = Ok (0, 1, 2)%Q.
Proof. split; reflexivity. Qed.

(** * C116 *)
(** C116: the mean magnitude of centrals is used as it was calibrated for clusters with scale factor one. *)
Theorem C116_magnitude_partial : forall c k, wl_scale k = 1 -> mbar_use c k = mbar_fit c k.
Proof. intros c k E. unfold mbar_use, mbar_fit. rewrite E. unfold Rdiv at 3. rewrite Rinv_1, Rmult_1_r. reflexivity. Qed.
Print Assumptions C116_magnitude_partial.
(** Finding: for others it is not: the calibration removes the scale factor from the richness and the centering does not. *)
Theorem C116_magnitude_refuted : forall c k, 0 < wl_lam k -> 0 < wl_scale k -> 0 < w_pivot c ->
  mbar_use c k - mbar_fit c k = w_delta1 c * ln (wl_scale k).
Proof.
  intros c k Hl Hs Hp. unfold mbar_use, mbar_fit. assert (P : 0 < wl_lam k / w_pivot c) by (apply Rdiv_lt_0_compat; lra).
  replace (wl_lam k / wl_scale k / w_pivot c) with (wl_lam k / w_pivot c * / wl_scale k) by (field; lra). rewrite ln_mult by (auto using Rinv_0_lt_compat). rewrite ln_Rinv by lra. ring.
Qed.
Print Assumptions C116_magnitude_refuted.
(** The widths are used as calibrated up to the largest richness of the calibration, *)
Theorem C116_width_partial : forall maxlambda sig c k, wl_lam k <= maxlambda -> sig_use maxlambda sig c k = sig_fit sig c k.
Proof. intros maxlambda sig c k H. unfold sig_use, sig_fit. rewrite Rmin_left by exact H. reflexivity. Qed.
Print Assumptions C116_width_partial.
(** Finding: which limits Lambda/scaleval in the calibration and Lambda in the centering: for a cluster of the calibration with
    Lambda above it the width used is larger than the one fitted. *)
Theorem C116_width_refuted : forall maxlambda sig c k, 0 < sig -> 0 < maxlambda -> 0 < wl_scale k -> 0 < w_pivot c -> maxlambda < wl_lam k ->
  sig_fit sig c k < sig_use maxlambda sig c k.
Proof.
  intros maxlambda sig c k Hs Hm Hk Hp H. unfold sig_use, sig_fit. rewrite Rmin_right by lra. unfold Rdiv. apply Rmult_lt_compat_l; [exact Hs|].
  assert (A : 0 < maxlambda * / wl_scale k * / w_pivot c) by (repeat apply Rmult_lt_0_compat; auto using Rinv_0_lt_compat).
  apply Rinv_lt_contravar; [apply Rmult_lt_0_compat; apply sqrt_lt_R0; auto; repeat apply Rmult_lt_0_compat; auto using Rinv_0_lt_compat; lra|].
  apply sqrt_lt_1_alt. split; [lra|]. apply Rmult_lt_compat_r; [auto using Rinv_0_lt_compat|]. apply Rmult_lt_compat_r; [auto using Rinv_0_lt_compat|exact H].
Qed.
Print Assumptions C116_width_refuted.

(** cases that meet the hypotheses *)
Definition ex_c : wcfg := mkW 0 0 0 30 (0, - 9999) (0, - 9999) (0, 0) (mkPhi (- 9999) (- 9999) (- 9999) (- 9999)).
Definition ex_mc (i : nat) : phi1 := mkPhi (- 1 - INR i) (- 4/10) (2/10) (- 1/10).
Example C113_example : exists c' f1 f2, iterations ex_mc (fun _ => (1, 1/2)) (fun _ _ _ => (- 1, - 1/10, 3/10)) (fun _ _ => (1/5, 1/5)) "rand" "sat" 2 ex_c = (c', [f1; f2]) /\
  f_phi f1 = Some (mkPhi (- 1 - INR 1) (- 4/10) (2/10) (- 1/10)) /\ f_phi f2 = Some (mkPhi (- 1 - INR 1) (- 1 - INR 1) (2/10) (- 1/10)).
Proof.
  destruct (C113_later_refuted ex_mc (fun _ => (1, 1/2)) (fun _ _ _ => (- 1, - 1/10, 3/10)) (fun _ _ => (1/5, 1/5)) "rand"%string "sat"%string ex_c 1) as (c' & fs & E & L & K); [cbn; lra|cbn; lra|].
  destruct (C113_first ex_mc (fun _ => (1, 1/2)) (fun _ _ _ => (- 1, - 1/10, 3/10)) (fun _ _ => (1/5, 1/5)) "rand"%string "sat"%string ex_c) as (c1 & f & E1 & F1); [cbn; lra|].
  destruct fs as [|f1 [|f2 [|]]]; try discriminate. exists c', f1, f2. split; [exact E|]. split; [|exact (K 0%nat f2 eq_refl)].
  remember 1%nat as one. cbn [iterations] in E. subst one. rewrite E1 in E. cbn [app] in E. destruct (iteration _ _ _ _ _ _ 2 c1) as [c2 g]. injection E as _ <- _. exact F1.
Qed.
Example C114_example : calibrator 1 None (Some "sat"%string) ex_c = Err RuntimeError /\ calibrator 2 None None ex_c = Ok tt.
Proof. split; [apply C114_start; split; [reflexivity|left; split; [reflexivity|cbn; lra]]|reflexivity]. Qed.
Example C116_example : mbar_use (mkW 1 2 0 30 (0,0) (0,0) (0,0) (ex_mc 0)) (mkWC 60 2 18) - mbar_fit (mkW 1 2 0 30 (0,0) (0,0) (0,0) (ex_mc 0)) (mkWC 60 2 18) = 2 * ln 2.
Proof. rewrite C116_magnitude_refuted; cbn; lra. Qed.
