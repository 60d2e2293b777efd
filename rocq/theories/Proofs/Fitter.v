(** Proofs about the calibration fits. *)
From Coq Require Import QArith Lqa Reals Lra Permutation.
From Verif.Base Require Import Py PyLemmas Sort.
From Verif.Model Require Import BkgGen Fitter.
From Verif.Spec Require Import Fitter.
From Verif.Proofs Require Import BkgGen.
Local Open Scope nat_scope.

Section RS.
Local Open Scope R_scope.
Context {P : Type}.
Variable S : fsetup P.
Variable gs : list fgal.

Lemma keep_col gsig col p : fs_ind0 S = true \/ fs_scatter S = false -> fst (evaluate S gs gsig col p) = col.
Proof. unfold evaluate, col_after. destruct (fs_scatter S), (fs_ind0 S); cbn; intuition discriminate. Qed.
Lemma keep_cols gsig ps : fs_ind0 S = true \/ fs_scatter S = false -> forall col, evaluations S gs gsig col ps = col.
Proof. intros H. unfold evaluations. induction ps as [|p ps IH]; intros col; [reflexivity|]. cbn [fold_left]. rewrite (keep_col gsig col p H). apply IH. Qed.

Lemma combine_map_snd {A B C} (f : A * B -> C) (l : list A) (m : list B) : List.length l = List.length m -> combine l (map f (combine l m)) = map (fun x => (fst x, f x)) (combine l m).
Proof. revert m. induction l as [|a l IH]; intros [|b m] H; try discriminate; [reflexivity|]. cbn. f_equal. apply IH. injection H as H. exact H. Qed.
Lemma drift_one gsig col p : fs_scatter S = true -> fs_ind0 S = false -> fs_ind1 S = false -> fst (evaluate S gs gsig col p) = drifted 1 gs col.
Proof.
  intros H1 H2 H3. unfold evaluate, col_after, drifted, e2s, e2_of. rewrite H1, H2, H3. cbn [fst]. apply map_ext. intros [g x]. cbn. lra.
Qed.
Lemma drifted_add k m col : List.length col = List.length gs -> drifted k gs (drifted m gs col) = drifted (k + m) gs col.
Proof.
  intros H. unfold drifted at 1 2. rewrite combine_map_snd by (symmetry; exact H). rewrite map_map. unfold drifted. apply map_ext. intros [g x]. cbn [fst snd]. rewrite plus_INR. ring.
Qed.
Lemma drifted_length k col : List.length col = List.length gs -> List.length (drifted k gs col) = List.length gs.
Proof. intros H. unfold drifted. rewrite map_length, combine_length, H. apply Nat.min_id. Qed.
Lemma drifted_0 col : List.length col = List.length gs -> drifted 0 gs col = col.
Proof.
  unfold drifted. clear S. revert gs. induction col as [|x col IH]; intros [|g l] H; try discriminate; [reflexivity|]. cbn [combine map fst snd]. rewrite IH by (injection H as H; exact H). f_equal. cbn. ring.
Qed.
Lemma drift_many gsig ps : fs_scatter S = true -> fs_ind0 S = false -> fs_ind1 S = false -> forall col, List.length col = List.length gs ->
  evaluations S gs gsig col ps = drifted (List.length ps) gs col.
Proof.
  intros H1 H2 H3. induction ps as [|p ps IH]; intros col Hc; [symmetry; apply drifted_0, Hc|]. unfold evaluations in *. cbn [fold_left List.length].
  rewrite drift_one by assumption. rewrite IH by (apply drifted_length, Hc). rewrite drifted_add by exact Hc. f_equal. rewrite Nat.add_comm. reflexivity.
Qed.
End RS.

Local Open Scope R_scope.
(** a galaxy on the model color, in no background and without truncation: the wider, the less likely *)
Lemma like1_mono {P} (S : fsetup P) p g v w : fg_p g = 1 -> fg_col g = fs_mean S p g -> (forall s, fs_phi S g s = 1) -> 0 < v -> v < w -> like1 S p g w < like1 S p g v.
Proof.
  intros Hp Hc Hf Hv Hw.
  assert (X : forall u, 0 < u -> like1 S p g u = ln (/ sqrt (2 * PI)) - ln (sqrt u)).
  { intros u Hu. pose proof (sqrt_lt_R0 u Hu) as Hs. pose proof PI_RGT_0 as HP. assert (Hq : 0 < sqrt (2 * PI)) by (apply sqrt_lt_R0; lra).
    unfold like1. rewrite Hp, Hc, Hf.
    assert (E : 1 * (1 / sqrt u * (1 / sqrt (2 * PI)) * exp (- (1 / 2) * ((fs_mean S p g - fs_mean S p g) / sqrt u) ^ 2) / 1) + (1 - 1) * fg_bkg g = / sqrt (2 * PI) * / sqrt u).
    { replace (- (1 / 2) * ((fs_mean S p g - fs_mean S p g) / sqrt u) ^ 2) with 0 by (unfold Rdiv; ring). rewrite exp_0. field. split; lra. }
    rewrite E. assert (H0 : 0 < / sqrt (2 * PI) * / sqrt u) by (apply Rmult_lt_0_compat; apply Rinv_0_lt_compat; assumption).
    destruct (Rltb 0 (/ sqrt (2 * PI) * / sqrt u)) eqn:Eb; [|exfalso; apply not_true_iff_false in Eb; apply Eb, Rltb_iff, H0].
    rewrite ln_mult by (apply Rinv_0_lt_compat; assumption). rewrite (ln_Rinv (sqrt u)) by exact Hs. ring. }
  rewrite !X by lra. assert (ln (sqrt v) < ln (sqrt w)); [|lra]. apply ln_increasing; [apply sqrt_lt_R0, Hv|]. apply sqrt_lt_1; lra.
Qed.
Local Close Scope R_scope.

(** parameter vectors *)
Lemma slice_app {A} (a b c : list A) : slice (a ++ b ++ c) (List.length a) (List.length a + List.length b) = b.
Proof.
  unfold slice. rewrite skipn_app, skipn_all, Nat.sub_diag. cbn. replace (List.length a + List.length b - List.length a) with (List.length b) by lia.
  rewrite firstn_app, firstn_all, Nat.sub_diag, firstn_O, app_nil_r. reflexivity.
Qed.
Lemma split3 {A} (x : list A) a b c : List.length x = a + b + c -> exists l m r, x = l ++ m ++ r /\ List.length l = a /\ List.length m = b /\ List.length r = c.
Proof.
  intros H. exists (firstn a x), (firstn b (skipn a x)), (skipn b (skipn a x)). split; [rewrite firstn_skipn, firstn_skipn; reflexivity|].
  rewrite !firstn_length, !skipn_length. lia.
Qed.
Lemma unpack_split {A} f c (l m r : list A) : List.length l = mean_count f c -> List.length m = slope_count f c ->
  List.length r = (if pf_scatter f then n_scatter c + err_count f else 0) ->
  unpack f c (l ++ m ++ r) = (if pf_mean f then [l] else []) ++ (if pf_slope f then [m] else []) ++ (if pf_scatter f then [r] else []).
Proof.
  intros Hl Hm Hr. unfold unpack, scatter_index, slope_index, err_count in *. rewrite <- Hl, <- Hm.
  assert (E1 : pf_mean f = true -> slice (l ++ m ++ r) 0 (n_mean c) = l).
  { intros E. unfold mean_count in Hl. rewrite E in Hl. pose proof (slice_app (@nil A) l (m ++ r)) as X. cbn in X. rewrite Hl in X. exact X. }
  assert (E2 : pf_slope f = true -> slice (l ++ m ++ r) (List.length l) (List.length l + n_slope c) = m).
  { intros E. unfold slope_count in Hm. rewrite E in Hm. rewrite <- Hm. apply slice_app. }
  assert (E3 : pf_scatter f = true -> slice (l ++ m ++ r) (List.length l + List.length m) (List.length l + List.length m + n_scatter c + (if pf_err f then 2 else 0)) = r).
  { intros E. rewrite E in Hr. pose proof (slice_app (l ++ m) r []) as X. rewrite app_nil_r, app_length, Hr, <- app_assoc in X. rewrite <- X at 2. f_equal. lia. }
  destruct (pf_mean f), (pf_slope f), (pf_scatter f); cbn [app]; rewrite ?E1, ?E2, ?E3 by reflexivity; reflexivity.
Qed.

(** the 2x2 covariance *)
Lemma clipr_bounds r : (- (9 # 10) <= clipr r /\ clipr r <= 9 # 10)%Q.
Proof.
  unfold clipr, Qmin2, Qmax2. destruct (Qle_bool (- (9 # 10)) r) eqn:E1.
  - apply Qle_bool_iff in E1. destruct (Qle_bool (9 # 10) r) eqn:E2; [split; Lqa.lra|]. apply not_true_iff_false in E2. rewrite Qle_bool_iff in E2. split; Lqa.lra.
  - split; destruct (Qle_bool (9 # 10) (- (9 # 10))) eqn:E; Lqa.lra.
Qed.
Lemma Qsq (x : Q) : (0 <= x * x)%Q.
Proof. destruct (Qlt_le_dec x 0) as [H|H]; [|apply Qmult_le_0_compat; exact H]. assert (E : (x * x == (- x) * (- x))%Q) by ring. rewrite E. apply Qmult_le_0_compat; Lqa.lra. Qed.
Lemma Qsq2 (x : Q) : (0 <= x ^ 2)%Q.
Proof. assert (E : (x ^ 2 == x * x)%Q) by ring. rewrite E. apply Qsq. Qed.
Lemma det_pos adj ej ej1 ek ek1 r s1 s2 : (0 < s1)%Q -> (0 < s2)%Q -> (adj = true -> ej1 == ek)%Q ->
  (0 < det2 (cadd (intr r s1 s2) (noise adj ej ej1 ek ek1)))%Q.
Proof.
  intros H1 H2 Ha. pose proof (clipr_bounds r) as [Hl Hh]. unfold det2, cadd, intr, noise. cbn [c00 c01 c11].
  pose proof (Qsq2 ej) as Q1. pose proof (Qsq2 ej1) as Q2. pose proof (Qsq2 ek) as Q3. pose proof (Qsq2 ek1) as Q4.
  set (rho := clipr r) in *. clearbody rho.
  assert (P12 : (0 < s1 * s2)%Q) by Lqa.nra.
  assert (K : (0 < (s1 * s2) ^ 2 - (rho * s1 * s2) ^ 2)%Q).
  { assert (E : ((s1 * s2) ^ 2 - (rho * s1 * s2) ^ 2 == (s1 * s2) * (s1 * s2) * (1 - rho * rho))%Q) by ring. rewrite E.
    assert (0 < 1 - rho * rho)%Q by Lqa.nra. assert (0 < s1 * s2 * (s1 * s2))%Q by Lqa.nra. Lqa.nra. }
  destruct adj.
  - specialize (Ha eq_refl). rewrite Ha. set (a := (ej ^ 2)%Q) in *. set (b := (ek1 ^ 2)%Q) in *. set (e := (ek ^ 2)%Q) in *.
    assert (E : ((s1 ^ 2 + (a + e)) * (s2 ^ 2 + (e + b)) - (rho * s1 * s2 + - e) * (rho * s1 * s2 + - e) ==
      ((s1 * s2) ^ 2 - (rho * s1 * s2) ^ 2) + e * ((s1 - s2) * (s1 - s2) + 2 * (1 + rho) * (s1 * s2)) + (s1 ^ 2 * b + a * s2 ^ 2 + a * e + a * b + e * b))%Q) by ring.
    rewrite E. pose proof (Qsq (s1 - s2)) as Hd. assert (0 <= 2 * (1 + rho) * (s1 * s2))%Q by (apply Qmult_le_0_compat; Lqa.lra).
    assert (0 <= e * ((s1 - s2) * (s1 - s2) + 2 * (1 + rho) * (s1 * s2)))%Q by (apply Qmult_le_0_compat; Lqa.lra).
    assert (0 <= s1 ^ 2 * b)%Q by (apply Qmult_le_0_compat; [apply Qsq2|assumption]). assert (0 <= a * s2 ^ 2)%Q by (apply Qmult_le_0_compat; [assumption|apply Qsq2]).
    assert (0 <= a * e)%Q by (apply Qmult_le_0_compat; assumption). assert (0 <= a * b)%Q by (apply Qmult_le_0_compat; assumption). assert (0 <= e * b)%Q by (apply Qmult_le_0_compat; assumption). Lqa.lra.
  - set (a := (ej ^ 2 + ej1 ^ 2)%Q). set (b := (ek ^ 2 + ek1 ^ 2)%Q). assert (0 <= a)%Q by (unfold a; Lqa.lra). assert (0 <= b)%Q by (unfold b; Lqa.lra). clearbody a b.
    assert (E : ((s1 ^ 2 + a) * (s2 ^ 2 + b) - (rho * s1 * s2 + 0) * (rho * s1 * s2 + 0) == ((s1 * s2) ^ 2 - (rho * s1 * s2) ^ 2) + (s1 ^ 2 * b + a * s2 ^ 2 + a * b))%Q) by ring.
    rewrite E. assert (0 <= s1 ^ 2 * b)%Q by (apply Qmult_le_0_compat; [apply Qsq2|assumption]). assert (0 <= a * s2 ^ 2)%Q by (apply Qmult_le_0_compat; [assumption|apply Qsq2]). assert (0 <= a * b)%Q by (apply Qmult_le_0_compat; assumption). Lqa.lra.
Qed.
Lemma metric_inv a : ~ (det2 a == 0)%Q -> (c00 a * c00 (metric a) + c01 a * c01 (metric a) == 1 /\ c01 a * c01 (metric a) + c11 a * c11 (metric a) == 1 /\
  c00 a * c01 (metric a) + c01 a * c11 (metric a) == 0 /\ c01 a * c00 (metric a) + c11 a * c01 (metric a) == 0)%Q.
Proof. intros H. unfold metric. cbn [c00 c01 c11]. unfold det2 in *. repeat split; field; exact H. Qed.
Lemma expo_neg a d1 d2 : (0 < c00 a)%Q -> (0 < det2 a)%Q -> (expo a d1 d2 <= 0)%Q.
Proof.
  intros H0 Hd. unfold expo, metric. cbn [c00 c01 c11].
  assert (E : (- (1 # 2) * (c11 a / det2 a * d1 * d1 + (- c01 a / det2 a + - c01 a / det2 a) * d1 * d2 + c00 a / det2 a * d2 * d2) ==
     - (1 # 2) * ((c00 a * d2 - c01 a * d1) * (c00 a * d2 - c01 a * d1) + det2 a * (d1 * d1)) / (det2 a * c00 a))%Q).
  { unfold det2 in *. field. split; intro X; Lqa.lra. }
  rewrite E. set (n := ((c00 a * d2 - c01 a * d1) * (c00 a * d2 - c01 a * d1) + det2 a * (d1 * d1))%Q).
  assert (Hn : (0 <= n)%Q) by (unfold n; pose proof (Qsq (c00 a * d2 - c01 a * d1)); assert (0 <= det2 a * (d1 * d1))%Q by (apply Qmult_le_0_compat; [apply Qlt_le_weak, Hd|apply Qsq]); Lqa.lra).
  assert (Hp : (0 < det2 a * c00 a)%Q) by Lqa.nra. apply (Qle_shift_div_r _ _ _ Hp). Lqa.lra.
Qed.
Lemma perm2 (l : list nat) : Permutation l (seq 0 2) -> l = [0; 1] \/ l = [1; 0].
Proof.
  intros H. pose proof (Permutation_length H) as Hl. destruct l as [|a [|b [|? ?]]]; try discriminate.
  assert (Ha : In a [0; 1]) by (apply (Permutation_in a H); left; reflexivity). assert (Hb : In b [0; 1]) by (apply (Permutation_in b H); right; left; reflexivity).
  assert (Hn : NoDup [a; b]) by (apply (Permutation_NoDup (Permutation_sym H)), seq_NoDup). apply NoDup_cons_iff in Hn. destruct Hn as [Hn _]. cbn in Hn, Ha, Hb. intuition (subst; auto; exfalso; auto).
Qed.
