(** C135: the fit of the ratio of true to stated magnitude errors. *)
From Coq Require Import Reals Lra.
From Verif.Base Require Import Py PyLemmas.
From Verif.Model Require Import ErrBin.
From Verif.Proofs Require Import ErrBin.
From Coq Require Import Lia List. Import ListNotations.
Local Open Scope R_scope.

(** C135: where the scatter of the colors is all due to errors, errors larger by a factor [a] make the normalised residuals smaller by
    this factor, in every bin. *)
Theorem C135_scaled : forall bins a, 0 < a -> (forall q g, In q bins -> In g (fst q) -> g_s2 g = 0) ->
  chi2 true true bins a 0 = fold_right Rplus 0 (map (fun q => (madR (map (pull false false 1 0) (fst q)) / a - 1) ^ 2 / snd q ^ 2) (used bins)).
Proof.
  intros bins a Ha Hs. unfold chi2. f_equal. apply map_ext_in. intros q Hq. apply filter_In in Hq. destruct Hq as [Hq _]. f_equal. f_equal. f_equal.
  unfold Rdiv. rewrite <- mad_scale by (apply Rinv_0_lt_compat, Ha). rewrite map_map. f_equal. apply map_ext_in. intros g Hg. apply pull_scale; [exact Ha|apply (Hs q); assumption].
Qed.
Print Assumptions C135_scaled.
(** C135: so if the residuals in every bin scatter by [k] times the stated errors, the fit is best at the ratio [k]. *)
Theorem C135_recovered : forall bins k, 0 < k -> (forall q g, In q bins -> In g (fst q) -> g_s2 g = 0) ->
  (forall q, In q bins -> 0 < snd q -> madR (map (fun g => g_dc g / sqrt (g_e0 g ^ 2 + g_e1 g ^ 2)) (fst q)) = k) ->
  chi2 true true bins k 0 = 0 /\ forall s0 s1 a b, chi2 true true bins k 0 <= chi2 s0 s1 bins a b.
Proof.
  intros bins k Hk Hs Hm. assert (Z : chi2 true true bins k 0 = 0).
  { rewrite C135_scaled by assumption. assert (F : forall q, In q (used bins) -> (madR (map (pull false false 1 0) (fst q)) / k - 1) ^ 2 / snd q ^ 2 = 0).
    { intros q Hq. apply filter_In in Hq. destruct Hq as [Hq Hp]. destruct (Rlt_dec 0 (snd q)) as [P|]; [|discriminate].
      assert (E : madR (map (pull false false 1 0) (fst q)) = k).
      { rewrite <- (Hm q Hq P). f_equal. apply map_ext_in. intros g Hg. unfold pull. rewrite (Hs q g Hq Hg). do 2 f_equal. ring. }
      rewrite E. field. lra. }
    induction (used bins) as [|q t IH]; cbn [map fold_right]; [reflexivity|]. rewrite (F q (or_introl eq_refl)), IH by (intros; apply F; right; assumption). lra. }
  split; [exact Z|]. intros s0 s1 a b. rewrite Z. unfold chi2. assert (P : forall q, In q (used bins) -> 0 < snd q) by (intros q Hq; apply filter_In in Hq; destruct Hq as [_ Hp]; destruct (Rlt_dec 0 (snd q)); [assumption|discriminate]).
  induction (used bins) as [|q t IH]; cbn [map fold_right]; [lra|]. apply Rplus_le_le_0_compat; [|apply IH; intros; apply P; right; assumption].
  apply Rmult_le_pos; [apply pow2_ge_0|]. apply Rlt_le, Rinv_0_lt_compat. apply pow_lt. apply P. left. reflexivity.
Qed.
Print Assumptions C135_recovered.
(** C135: a bin with a single galaxy never counts, whatever the bootstrap draws. *)
Theorem C135_single : forall g draws bins, draws <> [] -> (forall d, In d draws -> d <> [] /\ forall x, In x d -> x = g) ->
  mad_err draws = 0 /\ used (([g], mad_err draws) :: bins) = used bins.
Proof.
  intros g draws bins Hn Hd. assert (E : mad_err draws = 0).
  { unfold mad_err. apply mad_const with 0; [destruct draws; [congruence|discriminate]|]. intros x Hx. apply in_map_iff in Hx. destruct Hx as (d & <- & Hx). destruct (Hd d Hx) as [Hne Hg].
    apply mad_const with (pull false false 1 0 g); [destruct d; [congruence|discriminate]|]. intros y Hy. apply in_map_iff in Hy. destruct Hy as (z & <- & Hz). rewrite (Hg z Hz). reflexivity. }
  split; [exact E|]. unfold used. cbn [filter snd]. rewrite E. destruct (Rlt_dec 0 0); [lra|reflexivity].
Qed.
Print Assumptions C135_single.
(** C135: with no usable bin every ratio is as good as the start. *)
Theorem C135_none : forall s0 s1 bins a b, (forall q, In q bins -> snd q <= 0) -> chi2 s0 s1 bins a b = 0.
Proof.
  intros s0 s1 bins a b H. unfold chi2. assert (E : used bins = []); [|rewrite E; reflexivity]. unfold used. induction bins as [|q t IH]; [reflexivity|]. cbn [filter].
  pose proof (H q (or_introl eq_refl)). destruct (Rlt_dec 0 (snd q)); [lra|]. apply IH. intros; apply H; right; assumption.
Qed.
Print Assumptions C135_none.
(** C135: only the error of the selected band is scaled. *)
Theorem C135_band : forall a b g, pull true false a b g = g_dc g / sqrt (g_s2 g + ((a + b * g_dm g) * g_e0 g) ^ 2 + g_e1 g ^ 2) /\
  pull false true a b g = g_dc g / sqrt (g_s2 g + g_e0 g ^ 2 + ((a + b * g_dm g) * g_e1 g) ^ 2).
Proof. intros. split; reflexivity. Qed.
Print Assumptions C135_band.
(** C135, for magnitudes close enough to the pivot: the ratio is positive. *)
Theorem C135_positive_partial : forall a b dm, within_bounds a b -> Rabs dm < 1 / 10 -> 0 < a + b * dm.
Proof.
  intros a b dm [[H1 _] [H2 H3]] Hd. assert (Rabs (b * dm) < 5 / 10).
  { rewrite Rabs_mult. assert (Rabs b <= 5) by (apply Rabs_le; lra). pose proof (Rabs_pos dm). pose proof (Rabs_pos b). nra. }
  destruct (Rabs_def2 _ _ H). lra.
Qed.
Print Assumptions C135_positive_partial.
(** Finding: the bounds of the fit let the ratio vanish (or turn negative) for magnitudes a tenth from the pivot, and the sign of a
    ratio makes no difference to the fit: corrected errors can be zero or negative. *)
Theorem C135_positive_refuted : (exists a b dm, within_bounds a b /\ Rabs dm = 1 / 10 /\ a + b * dm = 0) /\
  (exists a b dm, within_bounds a b /\ Rabs dm = 2 / 10 /\ a + b * dm < 0) /\
  (forall s0 s1 a b a' b' g, a' + b' * g_dm g = - (a + b * g_dm g) -> pull s0 s1 a' b' g = pull s0 s1 a b g).
Proof.
  split; [|split].
  - exists (5 / 10), (-5), (1 / 10). unfold within_bounds. rewrite Rabs_pos_eq by lra. lra.
  - exists (5 / 10), (-5), (2 / 10). unfold within_bounds. rewrite Rabs_pos_eq by lra. lra.
  - intros s0 s1 a b a' b' g E. unfold pull. rewrite E. do 3 f_equal; [f_equal|]; destruct s0, s1; ring.
Qed.
Print Assumptions C135_positive_refuted.
(** three galaxies whose residuals scatter by 1.4826 times their errors *)
Example C135_ex : let q := (map (fun d => mkEG d 0 1 0 0) [-1; 0; 1], 1) in
  madR (map (fun g => g_dc g / sqrt (g_e0 g ^ 2 + g_e1 g ^ 2)) (fst q)) = 14826 / 10000 /\ 0 < snd q.
Proof.
  cbn [fst snd map g_dc g_e0 g_e1]. replace (1 ^ 2 + 0 ^ 2) with 1 by ring. rewrite sqrt_1. split; [|lra].
  unfold madR. assert (M : medianR [-1 / 1; 0 / 1; 1 / 1] = 0).
  { unfold medianR. cbn [sortR insertR]. repeat (destruct (Rle_dec _ _); cbn [insertR]; try lra). cbn. lra. }
  rewrite M. cbn [map]. replace (Rabs (-1 / 1 - 0)) with 1 by (rewrite Rabs_left; lra). replace (Rabs (0 / 1 - 0)) with 0 by (rewrite Rabs_right; lra). replace (Rabs (1 / 1 - 0)) with 1 by (rewrite Rabs_right; lra).
  assert (M2 : medianR [1; 0; 1] = 1). { unfold medianR. cbn [sortR insertR]. repeat (destruct (Rle_dec _ _); cbn [insertR]; try lra). all: cbn; lra. }
  rewrite M2. lra.
Qed.
