(** Lemmas for Props/CorrFit.v. *)
From Coq Require Import Reals Lra Permutation Sorted.
From Verif.Base Require Import Py PyLemmas.
From Verif.Model Require Import BkgGen Richness MaskCorr CorrFit.
From Verif.Spec Require Import CorrFit.
From Verif.Proofs Require Import Richness.
From Coq Require Import Lia List. Import ListNotations.
Local Open Scope R_scope.

Lemma normal_pos v d : 0 < v -> exists g, normal v d = Some g /\ 0 < g.
Proof.
  intros H. unfold normal. destruct (Req_EM_T v 0) as [E|_]; [lra|]. eexists. split; [reflexivity|].
  apply Rmult_lt_0_compat; [|apply exp_pos]. apply Rdiv_lt_0_compat; [lra|]. apply sqrt_lt_R0. pose proof PI_RGT_0. nra.
Qed.
Lemma normal_mono v d d' : 0 < v -> Rabs d <= Rabs d' -> exists g g', normal v d = Some g /\ normal v d' = Some g' /\ g' <= g /\ 0 < g'.
Proof.
  intros H Hd. unfold normal. destruct (Req_EM_T v 0) as [E|_]; [lra|]. do 2 eexists. split; [reflexivity|]. split; [reflexivity|].
  assert (P : 0 < 1 / sqrt (2 * PI * v)) by (apply Rdiv_lt_0_compat; [lra|]; apply sqrt_lt_R0; pose proof PI_RGT_0; nra).
  assert (S : d ^ 2 <= d' ^ 2) by (rewrite <- (pow2_abs d), <- (pow2_abs d'); apply pow_incr; split; [apply Rabs_pos|exact Hd]).
  split; [|apply Rmult_lt_0_compat; [exact P|apply exp_pos]].
  apply Rmult_le_compat_l; [lra|]. assert (- d' ^ 2 / (2 * v) <= - d ^ 2 / (2 * v)) by (apply Rmult_le_compat_r; [left; apply Rinv_0_lt_compat; lra|lra]).
  destruct (Rle_lt_or_eq_dec _ _ H0) as [L|E]; [left; apply exp_increasing, L|rewrite E; lra].
Qed.
Lemma tiny_pos : 0 < tiny. Proof. unfold tiny. apply Rdiv_lt_0_compat; [lra|]. apply pow_lt. lra. Qed.
Lemma sq_pos x : x <> 0 -> 0 < x ^ 2. Proof. intros H. rewrite <- Rsqr_pow2. apply Rsqr_pos_lt, H. Qed.
Lemma lik_pos spl nd p o : 0 < lik spl nd p o.
Proof.
  unfold lik. destruct (normal _ _) as [g0|]; [|apply tiny_pos]. destruct (normal _ _) as [g1|]; [|apply tiny_pos].
  unfold Rleb. destruct (Rle_dec _ 0) as [L|L]; [apply tiny_pos|lra].
Qed.
Lemma gbkg_pos x : 0 < Rmax (1 / 10 ^ 10) x.
Proof. apply Rlt_le_trans with (1 / 10 ^ 10); [apply Rdiv_lt_0_compat; [lra|apply pow_lt; lra]|apply Rmax_l]. Qed.
(** the likelihood of a regular galaxy *)
Lemma lik_eq spl nd p o : spl (nd_r nd) (cp_r p) (co_z o) <> 0 -> co_err o <> 0 -> 0 <= co_prob o <= 1 -> 0 < co_w o ->
  exists g0 g1,
    normal ((spl (nd_r nd) (cp_r p) (co_z o) * co_err o) ^ 2)
      (co_dz o - (spl (nd_mean nd) (cp_mean p) (co_z o) + spl (nd_slope nd) (cp_slope p) (co_z o) * co_dmag o)) = Some g0 /\
    normal (Rmax (1 / 10 ^ 10) (spl (nd_bkg nd) (cp_bkg p) (co_z o))) (co_dz o) = Some g1 /\ 0 < g0 /\ 0 < g1 /\
    lik spl nd p o = co_w o * (co_prob o * g0 + (1 - co_prob o) * g1) /\ 0 < co_prob o * g0 + (1 - co_prob o) * g1.
Proof.
  intros Hr He Hp Hw. assert (V : 0 < (spl (nd_r nd) (cp_r p) (co_z o) * co_err o) ^ 2) by (apply sq_pos, Rmult_integral_contrapositive_currified; assumption).
  destruct (normal_pos _ (co_dz o - (spl (nd_mean nd) (cp_mean p) (co_z o) + spl (nd_slope nd) (cp_slope p) (co_z o) * co_dmag o)) V) as (g0 & E0 & P0).
  destruct (normal_pos _ (co_dz o) (gbkg_pos (spl (nd_bkg nd) (cp_bkg p) (co_z o)))) as (g1 & E1 & P1).
  exists g0, g1. repeat (split; [assumption|]).
  assert (P : 0 < co_prob o * g0 + (1 - co_prob o) * g1).
  { destruct (Rle_lt_or_eq_dec 0 (co_prob o) (proj1 Hp)) as [L|E].
    - apply Rplus_lt_le_0_compat; [apply Rmult_lt_0_compat; assumption|apply Rmult_le_pos; lra].
    - rewrite <- E. lra. }
  split; [|exact P]. unfold lik. rewrite E0, E1. unfold Rleb. destruct (Rle_dec _ 0) as [L|L]; [|reflexivity].
  assert (0 < co_w o * (co_prob o * g0 + (1 - co_prob o) * g1)) by (apply Rmult_lt_0_compat; assumption). lra.
Qed.

Lemma slice_app_l {A} (a b : list A) n : List.length a = n -> slice (a ++ b) 0 n = a.
Proof. intros <-. unfold slice. rewrite Nat.sub_0_r. cbn [skipn]. rewrite firstn_app, firstn_all, Nat.sub_diag, firstn_O, app_nil_r. reflexivity. Qed.
Lemma slice_app {A} (a b c : list A) m n : List.length a = m -> List.length b = n -> slice (a ++ b ++ c) m (m + n) = b.
Proof.
  intros <- <-. unfold slice. rewrite skipn_app, skipn_all, Nat.sub_diag. cbn [skipn app]. replace (List.length a + List.length b - List.length a)%nat with (List.length b) by lia.
  rewrite firstn_app, firstn_all, Nat.sub_diag, firstn_O, app_nil_r. reflexivity.
Qed.
Lemma slice_app_r {A} (a b : list A) m n : List.length a = m -> List.length b = n -> slice (a ++ b) m (m + n) = b.
Proof. intros Ha Hb. pose proof (slice_app a b [] m n Ha Hb) as H. rewrite app_nil_r in H. exact H. Qed.
Lemma slice_len {A} (l : list A) a n : (a + n <= List.length l)%nat -> List.length (slice l a (a + n)) = n.
Proof. intros H. unfold slice. rewrite firstn_length, skipn_length. lia. Qed.
Lemma forall2_len {A B} (P : A -> B -> Prop) l l' : Forall2 P l l' -> List.length l = List.length l'.
Proof. induction 1; cbn; congruence. Qed.
Lemma forall2_slice {A B} (P : A -> B -> Prop) l l' : Forall2 P l l' -> forall a b, Forall2 P (slice l a b) (slice l' a b).
Proof.
  intros H a b. unfold slice. assert (S : Forall2 P (skipn a l) (skipn a l')) by (revert a; induction H; intros [|a]; cbn; auto).
  clear H. revert S. generalize (skipn a l) (skipn a l'). induction (b - a)%nat as [|n IH]; intros x y S; cbn; [constructor|]. destruct S; constructor; auto.
Qed.
Lemma forall2_repeat {A B} (P : A -> B -> Prop) a n l : Forall2 P (repeat a n) l -> forall x, In x l -> P a x.
Proof. revert l. induction n as [|n IH]; intros l H x Hx; inversion H; subst; [destruct Hx|]. destruct Hx as [<-|Hx]; eauto. Qed.
Lemma repeat_forall2 {A B} (P : A -> B -> Prop) a l : (forall x, In x l -> P a x) -> Forall2 P (repeat a (List.length l)) l.
Proof. induction l as [|x l IH]; intros H; cbn; constructor; [apply H; left; reflexivity|apply IH; intros; apply H; right; assumption]. Qed.

Section Fit.
Context (spl : list R -> list R -> R -> R) (nd : cnodes) (f : cflags).
Let N := @List.length R.
Lemma cnt_app (b : bool) (l l' : list R) : List.length l = List.length l' -> List.length (if b then l else []) = cnt b l'.
Proof. destruct b; cbn; auto. Qed.
Lemma start_len p : matches nd p -> N (start_vec f p) = ctr nd f.
Proof.
  intros (A & B & C & D). unfold N, start_vec, ctr, bkg_at, r_at, slope_at. rewrite !app_length, (cnt_app _ _ _ A), (cnt_app _ _ _ B), (cnt_app _ _ _ C), (cnt_app _ _ _ D). lia.
Qed.
Lemma bounds_len : List.length (bounds nd f) = ctr nd f.
Proof. unfold bounds, ctr, bkg_at, r_at, slope_at. rewrite !app_length, !repeat_length. lia. Qed.
(** the cost at the starting vector sees the parameters given *)
Lemma seen_start p : matches nd p -> seen nd f p (start_vec f p) = p.
Proof.
  intros (A & B & C & D). unfold seen, start_vec, group. destruct p as [pm ps pr pb]. cbn [cp_mean cp_slope cp_r cp_bkg] in *.
  unfold bkg_at, r_at, slope_at, cnt. f_equal.
  - destruct (cf_mean f); [|reflexivity]. rewrite slice_app_l by exact A. reflexivity.
  - destruct (cf_slope f); [|reflexivity]. apply slice_app; [|exact B]. destruct (cf_mean f); cbn; auto.
  - destruct (cf_r f); [|reflexivity]. rewrite app_assoc. apply slice_app; [|exact C]. rewrite app_length. destruct (cf_mean f), (cf_slope f); cbn; lia.
  - destruct (cf_bkg f); [|reflexivity]. rewrite !app_assoc. apply slice_app_r; [|exact D]. rewrite !app_length. destruct (cf_mean f), (cf_slope f), (cf_r f); cbn; lia.
Qed.
Lemma results_seen p x : results nd f x = groups (cf_mean f) (cf_slope f) (cf_r f) (cf_bkg f) (seen nd f p x).
Proof. unfold results, groups, seen, group. destruct (cf_mean f), (cf_slope f), (cf_r f), (cf_bkg f); reflexivity. Qed.
Lemma seen_len p x : matches nd p -> N x = ctr nd f -> matches nd (seen nd f p x).
Proof.
  intros (A & B & C & D) H. unfold N, ctr, bkg_at, r_at, slope_at in H. unfold matches, seen, group, bkg_at, r_at, slope_at, cnt in *. cbn [cp_mean cp_slope cp_r cp_bkg].
  repeat split.
  - destruct (cf_mean f); [|exact A]. apply (slice_len x 0). lia.
  - destruct (cf_slope f); [|exact B]. apply slice_len. lia.
  - destruct (cf_r f); [|exact C]. apply slice_len. lia.
  - destruct (cf_bkg f); [|exact D]. apply slice_len. lia.
Qed.
Lemma seen_fixed p x : (cf_mean f = false -> cp_mean (seen nd f p x) = cp_mean p) /\ (cf_slope f = false -> cp_slope (seen nd f p x) = cp_slope p) /\
  (cf_r f = false -> cp_r (seen nd f p x) = cp_r p) /\ (cf_bkg f = false -> cp_bkg (seen nd f p x) = cp_bkg p).
Proof. unfold seen, group. cbn. repeat split; intros ->; reflexivity. Qed.
Lemma seen_bounds p x : Forall2 within (bounds nd f) x ->
  (cf_r f = true -> forall v, In v (cp_r (seen nd f p x)) -> 1/10 <= v <= 2) /\ (cf_bkg f = true -> forall v, In v (cp_bkg (seen nd f p x)) -> 0 <= v).
Proof.
  intros H. split; intros E v Hv; unfold seen, group in Hv; cbn [cp_r cp_bkg] in Hv; rewrite E in Hv.
  - assert (F := forall2_slice _ _ _ H (r_at nd f) (r_at nd f + List.length (nd_r nd))).
    assert (EB : slice (bounds nd f) (r_at nd f) (r_at nd f + List.length (nd_r nd)) = repeat (Some (1/10), Some 2) (List.length (nd_r nd))).
    { unfold bounds. rewrite E. rewrite app_assoc. apply slice_app; [|apply repeat_length]. rewrite app_length, !repeat_length. reflexivity. }
    assert (F' : Forall2 within (repeat (Some (1/10), Some 2) (List.length (nd_r nd))) (slice x (r_at nd f) (r_at nd f + List.length (nd_r nd)))) by (rewrite <- EB; exact F).
    apply (forall2_repeat _ _ _ _ F') in Hv. unfold within in Hv. cbn in Hv. lra.
  - assert (F := forall2_slice _ _ _ H (bkg_at nd f) (bkg_at nd f + List.length (nd_bkg nd))).
    assert (EB : slice (bounds nd f) (bkg_at nd f) (bkg_at nd f + List.length (nd_bkg nd)) = repeat (Some 0, None) (List.length (nd_bkg nd))).
    { unfold bounds. rewrite E. rewrite !app_assoc. cbn [cnt]. apply slice_app_r; [|apply repeat_length]. rewrite !app_length, !repeat_length. reflexivity. }
    assert (F' : Forall2 within (repeat (Some 0, None) (List.length (nd_bkg nd))) (slice x (bkg_at nd f) (bkg_at nd f + List.length (nd_bkg nd)))) by (rewrite <- EB; exact F).
    apply (forall2_repeat _ _ _ _ F') in Hv. unfold within in Hv. cbn in Hv. lra.
Qed.
Lemma start_within p : matches nd p -> allowed p -> Forall2 within (bounds nd f) (start_vec f p).
Proof.
  intros (A & B & C & D) (HR & HB). unfold bounds, start_vec, cnt.
  repeat apply Forall2_app; match goal with |- Forall2 _ (repeat _ (if ?b then _ else _)) _ => destruct b; [|constructor] end;
    first [rewrite <- A|rewrite <- B|rewrite <- C|rewrite <- D]; apply repeat_forall2; intros v Hv; unfold within; cbn; auto.
Qed.
Variable minimize : (list R -> R) -> list R -> list bound -> list R.
Lemma fit_ok obs p : optimiser minimize -> matches nd p -> allowed p -> (0 < ctr nd f)%nat ->
  exists q, fit spl nd minimize f p obs = Ok (groups (cf_mean f) (cf_slope f) (cf_r f) (cf_bkg f) q) /\ matches nd q /\ allowed q /\ cost spl nd obs q <= cost spl nd obs p /\
   (cf_mean f = false -> cp_mean q = cp_mean p) /\ (cf_slope f = false -> cp_slope q = cp_slope p) /\
   (cf_r f = false -> cp_r q = cp_r p) /\ (cf_bkg f = false -> cp_bkg q = cp_bkg p).
Proof.
  intros HO Hm Ha Hc. set (cf := fun x => cost spl nd obs (seen nd f p x)). set (x := minimize cf (start_vec f p) (bounds nd f)).
  destruct (HO cf (start_vec f p) (bounds nd f) (start_within p Hm Ha)) as [Hw Hle]. fold x in Hw, Hle.
  exists (seen nd f p x). split; [|split; [|split; [|split]]].
  - unfold fit. rewrite (proj2 (Nat.eqb_neq _ _)) by lia. pose proof (start_len p Hm : List.length _ = _) as L1. pose proof bounds_len as L2. rewrite L1, L2, Nat.eqb_refl.
    fold cf. fold x. f_equal. apply results_seen.
  - apply seen_len; [exact Hm|]. rewrite <- bounds_len. symmetry. eapply forall2_len, Hw.
  - destruct (seen_bounds p x Hw) as [B1 B2]. destruct Ha as [A1 A2]. destruct (seen_fixed p x) as (_ & _ & F1 & F2). split.
    + destruct (cf_r f) eqn:E; [apply B1; reflexivity|]. rewrite F1 by reflexivity. exact A1.
    + destruct (cf_bkg f) eqn:E; [apply B2; reflexivity|]. rewrite F2 by reflexivity. exact A2.
  - unfold cf in Hle. rewrite (seen_start p Hm) in Hle. exact Hle.
  - apply seen_fixed.
Qed.
End Fit.

(** ** order statistics *)
Lemma count_perm {A} (p : A -> bool) l l' : Permutation l l' -> count p l = count p l'.
Proof. unfold count. induction 1; cbn [filter]; [reflexivity| | |congruence]; repeat destruct (p _); cbn; congruence. Qed.
Lemma count_app {A} (p : A -> bool) l l' : count p (l ++ l') = (count p l + count p l')%nat.
Proof. unfold count. induction l as [|a l IH]; cbn; [reflexivity|]. destruct (p a); cbn; rewrite IH; reflexivity. Qed.
Lemma count_le {A} (p : A -> bool) l : (count p l <= List.length l)%nat.
Proof. unfold count. induction l as [|a l IH]; cbn; [lia|]. destruct (p a); cbn; lia. Qed.
Lemma count_none {A} (p : A -> bool) l : (forall x, In x l -> p x = false) -> count p l = 0%nat.
Proof. unfold count. induction l as [|a l IH]; intros H; cbn; [reflexivity|]. rewrite (H a (or_introl eq_refl)). apply IH. intros; apply H; right; assumption. Qed.
Lemma count_all {A} (p : A -> bool) l : (forall x, In x l -> p x = true) -> count p l = List.length l.
Proof. unfold count. induction l as [|a l IH]; intros H; cbn; [reflexivity|]. rewrite (H a (or_introl eq_refl)). cbn. rewrite IH; [reflexivity|]. intros; apply H; right; assumption. Qed.
Lemma count_map {A B} (g : A -> B) p l : count p (map g l) = count (fun x => p (g x)) l.
Proof. unfold count. induction l as [|a l IH]; cbn; [reflexivity|]. destruct (p (g a)); cbn; congruence. Qed.
Lemma sorted_split (l : list R) k c (lt le : R -> bool) : (forall x, lt x = true <-> x < c) -> (forall x, le x = true <-> x <= c) -> StronglySorted Rle l -> nth_error l k = Some c ->
  (count lt l <= k)%nat /\ (k < count le l)%nat.
Proof.
  intros Hlt Hle Hs Hk. assert (Hl : (k < List.length l)%nat) by (apply nth_error_Some; congruence). split.
  - rewrite <- (firstn_skipn k l), count_app.
    assert (E : count lt (skipn k l) = 0%nat).
    { apply count_none. intros x Hx. apply not_true_iff_false. rewrite Hlt. apply Rle_not_lt. apply In_nth_error in Hx. destruct Hx as (i & Hi).
      assert (Hj : nth_error l (k + i) = Some x) by (rewrite <- Hi; clear; revert l; induction k as [|k IH]; intros l; [reflexivity|]; destruct l as [|y l]; [destruct i; reflexivity|]; cbn; apply IH).
      destruct i as [|i]; [rewrite Nat.add_0_r in Hj; assert (x = c) by congruence; subst; lra|].
      eapply (SS_nth Rle l k (k + S i)); [exact Hs|lia|exact Hk|exact Hj]. }
    rewrite E. pose proof (count_le lt (firstn k l)). rewrite firstn_length in H. lia.
  - rewrite <- (firstn_skipn (S k) l), count_app.
    assert (E : count le (firstn (S k) l) = S k).
    { rewrite count_all; [rewrite firstn_length; lia|]. intros x Hx. apply Hle. apply In_nth_error in Hx. destruct Hx as (i & Hi).
      assert (Hik : (i < S k)%nat) by (assert (i < List.length (firstn (S k) l))%nat by (apply nth_error_Some; congruence); rewrite firstn_length in H; lia).
      assert (Hj : nth_error l i = Some x).
      { rewrite <- (firstn_skipn (S k) l). rewrite nth_error_app1; [exact Hi|]. rewrite firstn_length. lia. }
      destruct (Nat.eq_dec i k) as [->|Hne]; [assert (x = c) by congruence; subst; lra|].
      eapply (SS_nth Rle l i k); [exact Hs|lia|exact Hj|exact Hk]. }
    rewrite E. lia.
Qed.
