From Coq Require Import Reals Lra Lia.
From Verif.Base Require Import Py PyLemmas.
From Verif.Model Require Import BkgGen Chisq.
From Verif.Spec Require Import Chisq.
From Verif.Proofs Require Import BkgGen Solver ZCorr.
Local Open Scope R_scope.

(** * finite sums *)
Lemma sumn_ext n f g : (forall i, (i < n)%nat -> f i = g i) -> sumn n f = sumn n g.
Proof. induction n as [|n IH]; intros H; [reflexivity|]. cbn. rewrite IH, (H n) by (intros; try apply H; lia). reflexivity. Qed.
Lemma sumn_zero n f : (forall i, (i < n)%nat -> f i = 0) -> sumn n f = 0.
Proof. induction n as [|n IH]; intros H; [reflexivity|]. cbn. rewrite IH, (H n) by (intros; try apply H; lia). ring. Qed.
Lemma sumn_plus n f g : sumn n (fun i => f i + g i) = sumn n f + sumn n g.
Proof. induction n as [|n IH]; cbn; [ring|]. rewrite IH. ring. Qed.
Lemma sumn_minus n f g : sumn n (fun i => f i - g i) = sumn n f - sumn n g.
Proof. induction n as [|n IH]; cbn; [ring|]. rewrite IH. ring. Qed.
Lemma sumn_scal n c f : sumn n (fun i => c * f i) = c * sumn n f.
Proof. induction n as [|n IH]; cbn; [ring|]. rewrite IH. ring. Qed.
Lemma sumn_scal_r n c f : sumn n (fun i => f i * c) = sumn n f * c.
Proof. induction n as [|n IH]; cbn; [ring|]. rewrite IH. ring. Qed.
Lemma sumn_swap n m f : sumn n (fun i => sumn m (fun j => f i j)) = sumn m (fun j => sumn n (fun i => f i j)).
Proof.
  induction n as [|n IH]; cbn; [symmetry; apply sumn_zero; reflexivity|].
  rewrite IH, <- sumn_plus. reflexivity.
Qed.
Lemma sumn_nonneg n f : (forall i, (i < n)%nat -> 0 <= f i) -> 0 <= sumn n f.
Proof.
  induction n as [|n IH]; cbn; intros H; [lra|].
  assert (0 <= sumn n f) by (apply IH; intros; apply H; lia). pose proof (H n (Nat.lt_succ_diag_r n)). lra.
Qed.
Lemma sumn_le n f g : (forall i, (i < n)%nat -> f i <= g i) -> sumn n f <= sumn n g.
Proof.
  intros H. assert (0 <= sumn n (fun i => g i - f i)) by (apply sumn_nonneg; intros i Hi; specialize (H i Hi); lra).
  rewrite sumn_minus in H0. lra.
Qed.
Lemma sumn_elem n f i : (i < n)%nat -> (forall i, (i < n)%nat -> 0 <= f i) -> f i <= sumn n f.
Proof.
  induction n as [|n IH]; cbn; intros Hi H; [lia|].
  pose proof (sumn_nonneg n f ltac:(intros; apply H; lia)). pose proof (H n (Nat.lt_succ_diag_r n)).
  destruct (Nat.eq_dec i n) as [->|]; [lra|]. specialize (IH ltac:(lia) ltac:(intros; apply H; lia)). lra.
Qed.
Lemma sumn_one n f k : (k < n)%nat -> (forall i, (i < n)%nat -> i <> k -> f i = 0) -> sumn n f = f k.
Proof.
  induction n as [|n IH]; cbn; intros Hk H; [lia|].
  destruct (Nat.eq_dec k n) as [->|].
  - rewrite sumn_zero by (intros; apply H; lia). ring.
  - rewrite IH by (intros; try apply H; lia). rewrite (H n) by lia. ring.
Qed.

(** * photometric part *)
Lemma cobsmat_entry nmag e i j :
  cobsmat nmag e i j = sumn nmag (fun l => mrotmat i l * mrotmat j l * (e l * e l)).
Proof.
  unfold cobsmat. apply sumn_ext. intros l Hl.
  rewrite (sumn_one nmag _ l Hl).
  - rewrite Nat.eqb_refl. ring.
  - intros k Hk Hne. destruct (Nat.eqb_spec l k); [congruence|ring].
Qed.

Lemma form_BDB n p (B : nat -> nat -> R) (d : vec) x :
  qform n (fun i j => sumn p (fun l => B i l * B j l * d l)) x
  = sumn p (fun l => d l * (sumn n (fun i => x i * B i l) * sumn n (fun i => x i * B i l))).
Proof.
  unfold qform.
  transitivity (sumn n (fun i => sumn p (fun l => x i * B i l * (d l * sumn n (fun j => x j * B j l))))).
  - apply sumn_ext. intros i _.
    rewrite (sumn_ext n _ (fun j => sumn p (fun l => B i l * B j l * d l * x j))) by (intros; rewrite sumn_scal_r; reflexivity).
    rewrite sumn_swap, <- sumn_scal. apply sumn_ext. intros l _.
    rewrite <- (sumn_scal n (d l)), <- !sumn_scal. apply sumn_ext. intros; ring.
  - rewrite sumn_swap. apply sumn_ext. intros l _. rewrite sumn_scal_r. ring.
Qed.

Lemma mrot_diff n x k : (k < n + 1)%nat -> sumn n (fun i => x i * mrotmat i k) = band_diff n x k.
Proof.
  intros Hk. unfold band_diff, mrotmat.
  transitivity (sumn n (fun i => (if Nat.eqb k i then x i else 0) - (if Nat.eqb k (i + 1) then x i else 0))).
  { apply sumn_ext. intros i Hi. destruct (Nat.eqb_spec k i), (Nat.eqb_spec k (i + 1)); try lia; ring. }
  rewrite sumn_minus. f_equal.
  - destruct (Nat.ltb_spec k n).
    + rewrite (sumn_one n _ k H); [rewrite Nat.eqb_refl; reflexivity|].
      intros i _ Hi. destruct (Nat.eqb_spec k i); congruence.
    + apply sumn_zero. intros i Hi. destruct (Nat.eqb_spec k i); [lia|reflexivity].
  - destruct k as [|k].
    + apply sumn_zero. intros i Hi. destruct (Nat.eqb_spec 0 (i + 1)); [lia|reflexivity].
    + rewrite (sumn_one n _ k); [destruct (Nat.eqb_spec (S k) (k + 1)); [reflexivity|lia]|lia|].
      intros i _ Hi. destruct (Nat.eqb_spec (S k) (i + 1)); [lia|reflexivity].
Qed.

Lemma qform_ext n m m' x x' : (forall i j, (i < n)%nat -> (j < n)%nat -> m i j = m' i j) ->
  (forall i, (i < n)%nat -> x i = x' i) -> qform n m x = qform n m' x'.
Proof.
  intros H Hx. unfold qform. apply sumn_ext. intros i Hi. rewrite (Hx i Hi). f_equal.
  apply sumn_ext. intros j Hj. rewrite (H i j Hi Hj), (Hx j Hj). reflexivity.
Qed.

Lemma cobs_form n e x :
  qform n (cobsmat (n + 1) e) x = sumn (n + 1) (fun k => (e k * band_diff n x k) * (e k * band_diff n x k)).
Proof.
  rewrite (qform_ext n _ _ x x (fun i j _ _ => cobsmat_entry (n + 1) e i j) (fun i _ => eq_refl)).
  rewrite (form_BDB n (n + 1) mrotmat (fun l => e l * e l)). apply sumn_ext. intros k Hk.
  rewrite (mrot_diff n x k Hk). ring.
Qed.

Lemma cimat_entry s e i j : cimat s e i j = s i * s j * (e * e).
Proof.
  unfold cimat. destruct (Nat.le_gt_cases i j).
  - rewrite Nat.min_l, Nat.max_r by lia. ring.
  - rewrite Nat.min_r, Nat.max_l by lia. ring.
Qed.
Lemma ci_form n s e x :
  qform n (cimat s e) x = (e * sumn n (fun j => s j * x j)) * (e * sumn n (fun j => s j * x j)).
Proof.
  unfold qform.
  rewrite (sumn_ext n _ (fun i => (s i * x i) * (e * e * sumn n (fun j => s j * x j)))).
  - rewrite sumn_scal_r. ring.
  - intros i _. rewrite (sumn_ext n _ (fun j => (s i * (e * e)) * (s j * x j))).
    + rewrite sumn_scal. ring.
    + intros j _. rewrite cimat_entry. ring.
Qed.

Lemma qform_plus n a b x : qform n (fun i j => a i j + b i j) x = qform n a x + qform n b x.
Proof.
  unfold qform. rewrite <- sumn_plus. apply sumn_ext. intros i _.
  rewrite <- Rmult_plus_distr_l, <- sumn_plus. f_equal. apply sumn_ext. intros; ring.
Qed.
Lemma qform_zero n x : qform n (fun _ _ => 0) x = 0.
Proof. unfold qform. apply sumn_zero. intros. rewrite sumn_zero; [ring|]. intros; ring. Qed.

Lemma row_cov_form np n w x :
  qform n (row_cov np n w) x = qform n (r_cov w) x
    + (if np then 0 else sumn (n + 1) (fun k => (r_magerr w k * band_diff n x k) * (r_magerr w k * band_diff n x k)))
    + (r_refmagerr w * sumn n (fun j => r_slope_ci w j * x j)) * (r_refmagerr w * sumn n (fun j => r_slope_ci w j * x j)).
Proof.
  unfold row_cov. rewrite qform_plus, qform_plus, ci_form. f_equal. f_equal.
  destruct np; [apply qform_zero|apply cobs_form].
Qed.
Lemma row_cov_ge np n w x : qform n (r_cov w) x <= qform n (row_cov np n w) x.
Proof.
  rewrite row_cov_form.
  assert (0 <= (r_refmagerr w * sumn n (fun j => r_slope_ci w j * x j)) * (r_refmagerr w * sumn n (fun j => r_slope_ci w j * x j)))
    by (apply Rle_0_sqr).
  destruct np; [lra|].
  assert (0 <= sumn (n + 1) (fun k => (r_magerr w k * band_diff n x k) * (r_magerr w k * band_diff n x k)))
    by (apply sumn_nonneg; intros; apply Rle_0_sqr).
  lra.
Qed.

Lemma cobsmat_sym nmag e i j : cobsmat nmag e i j = cobsmat nmag e j i.
Proof. rewrite !cobsmat_entry. apply sumn_ext. intros; ring. Qed.
Lemma row_cov_sym np n w : symmetric n (r_cov w) -> symmetric n (row_cov np n w).
Proof.
  intros H i j Hi Hj. unfold row_cov. rewrite (H i j Hi Hj), !cimat_entry, (cobsmat_sym _ _ i j). ring.
Qed.

(** * inverse and floor *)
Lemma norm2_nonneg n x : 0 <= norm2 n x.
Proof. apply sumn_nonneg. intros; apply Rle_0_sqr. Qed.
Lemma norm2_zero n x : norm2 n x <= 0 -> forall i, (i < n)%nat -> x i = 0.
Proof.
  intros H i Hi. pose proof (sumn_elem n (fun i => x i * x i) i Hi ltac:(intros; apply Rle_0_sqr)) as He.
  cbn in He. unfold norm2 in H. pose proof (Rle_0_sqr (x i)). unfold Rsqr in *.
  destruct (Rmult_integral (x i) (x i)); [lra|assumption|assumption].
Qed.
Lemma qform_mvec n m x : qform n m x = sumn n (fun i => x i * mvec n m x i).
Proof. reflexivity. Qed.
Lemma above_nonsing n m lam : 0 < lam -> above n m lam -> nonsingular n m.
Proof.
  intros Hl Ha x Hx. apply norm2_zero.
  assert (qform n m x = 0) by (rewrite qform_mvec; apply sumn_zero; intros i Hi; rewrite (Hx i Hi); ring).
  specialize (Ha x). pose proof (norm2_nonneg n x). nra.
Qed.

Section Fixed.
  Variable (n : nat) (L : gsl).
  Hypothesis OK : gsl_ok n L.

  Lemma mvec_ext m x y i : (forall j, (j < n)%nat -> x j = y j) -> mvec n m x i = mvec n m y i.
  Proof. intros H. apply sumn_ext. intros j Hj. rewrite (H j Hj). reflexivity. Qed.

  (* q^T (q x) = x for orthonormal columns *)
  Lemma orth_left (q : mat) x b : (b < n)%nat ->
    (forall a b, (a < n)%nat -> (b < n)%nat -> sumn n (fun i => q i a * q i b) = if Nat.eqb a b then 1 else 0) ->
    sumn n (fun i => q i b * mvec n q x i) = x b.
  Proof.
    intros Hb H. unfold mvec.
    rewrite (sumn_ext n _ (fun i => sumn n (fun j => (q i b * q i j) * x j)))
      by (intros; rewrite <- sumn_scal; apply sumn_ext; intros; ring).
    rewrite sumn_swap. rewrite (sumn_ext n _ (fun j => (if Nat.eqb b j then 1 else 0) * x j))
      by (intros j Hj; rewrite sumn_scal_r, (H b j Hb Hj); reflexivity).
    rewrite (sumn_one n _ b Hb); [rewrite Nat.eqb_refl; ring|].
    intros i _ Hi. destruct (Nat.eqb_spec b i); [congruence|ring].
  Qed.
  Lemma orth_nonsing q :
    (forall a b, (a < n)%nat -> (b < n)%nat -> sumn n (fun i => q i a * q i b) = if Nat.eqb a b then 1 else 0) ->
    nonsingular n q.
  Proof.
    intros H x Hx b Hb. rewrite <- (orth_left q x b Hb H). apply sumn_zero. intros i Hi. rewrite (Hx i Hi). ring.
  Qed.
  Lemma orth_inv q x b :
    (forall a b, (a < n)%nat -> (b < n)%nat -> sumn n (fun i => q i a * q i b) = if Nat.eqb a b then 1 else 0) ->
    (b < n)%nat -> mvec n (lu_inv L n (tab n q)) x b = sumn n (fun i => q i b * x i).
  Proof.
    intros H Hb. rewrite <- (orth_left q (mvec n (lu_inv L n (tab n q)) x) b Hb H).
    apply sumn_ext. intros i Hi. rewrite (inv_solves n L OK q (orth_nonsing q H) x i Hi). reflexivity.
  Qed.

  Definition floored (m : mat) : vec := fun i =>
    if Rltb (eigvals L n (tab n m) i) min_eigenval then min_eigenval else eigvals L n (tab n m) i.
  Lemma floored_ge m i : min_eigenval <= floored m i.
  Proof. unfold floored. destruct (Rltb _ _) eqn:E; [lra|]. apply Rltb_false in E. exact E. Qed.

  Lemma fix_cases m :
    (fix_covmat L n m = m /\ forall i, (i < n)%nat -> min_eigenval <= eigvals L n (tab n m) i) \/
    (forall i j, (i < n)%nat -> (j < n)%nat ->
      fix_covmat L n m i j = sumn n (fun k => eigvecs L n (tab n m) i k * floored m k
                                             * lu_inv L n (tab n (eigvecs L n (tab n m))) k j)).
  Proof.
    unfold fix_covmat. destruct (existsb _ _) eqn:E.
    - right. intros i j Hi Hj. apply sumn_ext. intros k Hk. f_equal.
      rewrite (sumn_one n _ k Hk); [rewrite Nat.eqb_refl; reflexivity|].
      intros l _ Hl. destruct (Nat.eqb_spec l k); [congruence|ring].
    - left. split; [reflexivity|]. intros i Hi. apply Rltb_false.
      apply Bool.not_true_is_false. intros Ht. apply Bool.not_true_iff_false in E. apply E.
      apply existsb_exists. exists i. split; [apply in_seq; lia|exact Ht].
  Qed.

  Lemma fix_above m : symmetric n m -> above n (fix_covmat L n m) min_eigenval.
  Proof.
    intros Hs. destruct (fix_cases m) as [[-> H]|H].
    - apply (vals_bound n L OK m _ Hs H).
    - intros x. set (q := eigvecs L n (tab n m)) in *.
      pose proof (vecs_orth n L OK m Hs) as Ho. fold q in Ho.
      set (y := fun k => sumn n (fun i => q i k * x i)).
      assert (Hy : forall k, (k < n)%nat -> mvec n (lu_inv L n (tab n q)) x k = y k)
        by (intros k Hk; apply (orth_inv q x k Ho Hk)).
      assert (Hqf : qform n (fix_covmat L n m) x = sumn n (fun k => floored m k * (y k * y k))).
      { rewrite (qform_ext n _ _ x x H (fun i _ => eq_refl)). unfold qform.
        transitivity (sumn n (fun i => sumn n (fun k => (q i k * x i) * (floored m k * y k)))).
        - apply sumn_ext. intros i Hi.
          rewrite (sumn_ext n _ (fun j => sumn n (fun k => q i k * floored m k * lu_inv L n (tab n q) k j * x j)))
            by (intros; rewrite sumn_scal_r; reflexivity).
          rewrite sumn_swap, <- sumn_scal. apply sumn_ext. intros k Hk.
          rewrite <- (Hy k Hk). unfold mvec.
          rewrite <- (sumn_scal n (floored m k)), <- !sumn_scal. apply sumn_ext. intros; ring.
        - rewrite sumn_swap. apply sumn_ext. intros k _. rewrite sumn_scal_r. fold (y k). ring. }
      assert (Hn : norm2 n x = sumn n (fun k => y k * y k)).
      { unfold norm2. rewrite (sumn_ext n _ (fun i => x i * sumn n (fun k => q i k * y k))).
        - rewrite (sumn_ext n _ (fun i => sumn n (fun k => (q i k * x i) * y k)))
            by (intros; rewrite <- sumn_scal; apply sumn_ext; intros; ring).
          rewrite sumn_swap. apply sumn_ext. intros k _. rewrite sumn_scal_r. reflexivity.
        - intros i Hi. f_equal. rewrite <- (inv_solves n L OK q (orth_nonsing q Ho) x i Hi).
          apply sumn_ext. intros k Hk. rewrite (Hy k Hk). reflexivity. }
      rewrite Hqf, Hn, <- sumn_scal. apply sumn_le. intros k _.
      apply Rmult_le_compat_r; [apply Rle_0_sqr|apply floored_ge].
  Qed.

  Lemma tab_ext m m' : (forall i j, (i < n)%nat -> (j < n)%nat -> m i j = m' i j) -> tab n m = tab n m'.
  Proof.
    intros H. unfold tab. apply map_ext_in. intros i Hi. apply in_seq in Hi.
    apply map_ext_in. intros j Hj. apply in_seq in Hj. apply H; lia.
  Qed.
  Lemma fix_ext m m' : (forall i j, (i < n)%nat -> (j < n)%nat -> m i j = m' i j) ->
    forall i j, (i < n)%nat -> (j < n)%nat -> fix_covmat L n m i j = fix_covmat L n m' i j.
  Proof.
    intros H i j Hi Hj. unfold fix_covmat. rewrite (tab_ext m m' H). destruct (existsb _ _); [reflexivity|apply H; assumption].
  Qed.

  Lemma fix_sym m : symmetric n m -> symmetric n (fix_covmat L n m).
  Proof.
    intros Hs. destruct (fix_cases m) as [[-> _]|H]; [exact Hs|].
    intros i j Hi Hj. rewrite (H i j Hi Hj), (H j i Hj Hi). apply sumn_ext. intros k Hk.
    set (q := eigvecs L n (tab n m)) in *.
    pose proof (vecs_orth n L OK m Hs) as Ho. fold q in Ho.
    assert (Hq : forall a b, (a < n)%nat -> (b < n)%nat -> lu_inv L n (tab n q) a b = q b a).
    { intros a b Ha Hb. pose proof (orth_inv q (fun c => if Nat.eqb c b then 1 else 0) a Ho Ha) as E.
      unfold mvec in E. rewrite (sumn_one n _ b Hb), (sumn_one n _ b Hb) in E.
      - rewrite Nat.eqb_refl in E. lra.
      - intros c _ Hc. destruct (Nat.eqb_spec c b); [congruence|ring].
      - intros c _ Hc. destruct (Nat.eqb_spec c b); [congruence|ring]. }
    rewrite (Hq k j Hk Hj), (Hq k i Hk Hi). ring.
  Qed.

  Lemma fix_same m : symmetric n m -> above n m min_eigenval -> fix_covmat L n m = m.
  Proof.
    intros Hs Ha. unfold fix_covmat. destruct (existsb _ _) eqn:E; [|reflexivity]. exfalso.
    apply existsb_exists in E as (i & Hi & Hlt). apply in_seq in Hi. apply Rltb_iff in Hlt.
    destruct (vals_vec n L OK m Hs i ltac:(lia)) as (v & Hv & Hm).
    specialize (Ha v). rewrite qform_mvec in Ha.
    rewrite (sumn_ext n _ (fun k => eigvals L n (tab n m) i * (v k * v k))) in Ha
      by (intros k Hk; rewrite (Hm k Hk); ring).
    rewrite sumn_scal in Ha. fold (norm2 n v) in Ha. nra.
  Qed.

  (** the quadratic form of the inverse *)
  Definition chi (m : mat) (d : vec) : R := sumn n (fun i => mvec n (lu_inv L n (tab n m)) d i * d i).
  Lemma chi_form m d lam : 0 < lam -> above n m lam ->
    chi m d = qform n m (mvec n (lu_inv L n (tab n m)) d).
  Proof.
    intros Hl Ha. rewrite qform_mvec. apply sumn_ext. intros i Hi.
    rewrite (inv_solves n L OK m (above_nonsing n m lam Hl Ha) d i Hi). reflexivity.
  Qed.
  Lemma chi_nonneg m d lam : 0 < lam -> above n m lam -> 0 <= chi m d.
  Proof.
    intros Hl Ha. rewrite (chi_form m d lam Hl Ha). pose proof (Ha (mvec n (lu_inv L n (tab n m)) d)).
    pose proof (norm2_nonneg n (mvec n (lu_inv L n (tab n m)) d)). nra.
  Qed.
  Lemma chi_zero m d lam : 0 < lam -> above n m lam -> (chi m d = 0 <-> forall i, (i < n)%nat -> d i = 0).
  Proof.
    intros Hl Ha. split.
    - intros H i Hi. rewrite (chi_form m d lam Hl Ha) in H.
      pose proof (Ha (mvec n (lu_inv L n (tab n m)) d)) as Hb.
      pose proof (norm2_nonneg n (mvec n (lu_inv L n (tab n m)) d)) as Hn.
      assert (norm2 n (mvec n (lu_inv L n (tab n m)) d) <= 0) as Hz by nra.
      rewrite <- (inv_solves n L OK m (above_nonsing n m lam Hl Ha) d i Hi).
      apply sumn_zero. intros j Hj. rewrite (norm2_zero n _ Hz j Hj). ring.
    - intros H. apply sumn_zero. intros i Hi. rewrite (H i Hi). ring.
  Qed.
  (** a larger covariance gives a smaller chi-squared *)
  Lemma qform_bilin m a b : symmetric n m ->
    qform n m (fun i => a i - b i) = qform n m a - 2 * sumn n (fun i => a i * mvec n m b i) + qform n m b.
  Proof.
    intros Hs.
    assert (Hsw : sumn n (fun i => b i * mvec n m a i) = sumn n (fun i => a i * mvec n m b i)).
    { unfold mvec. rewrite (sumn_ext n _ (fun i => sumn n (fun j => b i * (m i j * a j)))) by (intros; symmetry; apply sumn_scal).
      rewrite sumn_swap. apply sumn_ext. intros i Hi. rewrite <- sumn_scal. apply sumn_ext. intros j Hj.
      rewrite (Hs j i Hj Hi). ring. }
    unfold qform.
    rewrite (sumn_ext n _ (fun i => (a i * mvec n m a i - a i * mvec n m b i) - (b i * mvec n m a i - b i * mvec n m b i))).
    - rewrite !sumn_minus, Hsw. unfold mvec. ring.
    - intros i _. unfold mvec. rewrite (sumn_ext n _ (fun j => m i j * a j - m i j * b j)) by (intros; ring).
      rewrite sumn_minus. ring.
  Qed.
  Lemma chi_antitone m1 m2 d lam : 0 < lam -> above n m1 lam -> above n m2 lam -> symmetric n m1 ->
    (forall x, qform n m1 x <= qform n m2 x) -> chi m2 d <= chi m1 d.
  Proof.
    intros Hl H1 H2 Hs Hle.
    set (a := mvec n (lu_inv L n (tab n m2)) d). set (b := mvec n (lu_inv L n (tab n m1)) d).
    pose proof (chi_form m2 d lam Hl H2) as E2. fold a in E2.
    assert (Hab : 0 <= qform n m1 (fun i => a i - b i)).
    { pose proof (H1 (fun i => a i - b i)). pose proof (norm2_nonneg n (fun i => a i - b i)). nra. }
    rewrite (qform_bilin m1 a b Hs) in Hab.
    assert (Hd : sumn n (fun i => a i * mvec n m1 b i) = chi m2 d).
    { unfold chi. fold a. apply sumn_ext. intros i Hi. unfold b.
      rewrite (inv_solves n L OK m1 (above_nonsing n m1 lam Hl H1) d i Hi). reflexivity. }
    pose proof (chi_form m1 d lam Hl H1) as E1. fold b in E1.
    pose proof (Hle a). lra.
  Qed.
End Fixed.

Lemma min_eig_pos : 0 < min_eigenval. Proof. unfold min_eigenval. lra. Qed.

Lemma sigint_cases sigint ncol w :
  (existsb (fun j => Rltb (r_cov w j j) (sigint * sigint)) (seq 0 ncol) = false <-> passes_sigint sigint ncol w).
Proof.
  split.
  - intros E j Hj. apply Rltb_false. apply Bool.not_true_is_false. intros Ht.
    apply Bool.not_true_iff_false in E. apply E. apply existsb_exists. exists j. split; [apply in_seq; lia|exact Ht].
  - intros H. apply Bool.not_true_iff_false. intros Ht. apply existsb_exists in Ht as (j & Hj & Hlt).
    apply in_seq in Hj. apply Rltb_iff in Hlt. specialize (H j ltac:(lia)). lra.
Qed.
Lemma row_dist_chi L np sigint ncol w : passes_sigint sigint ncol w ->
  row_dist L true np sigint ncol w = chi ncol L (fix_covmat L ncol (row_cov np ncol w)) (row_vdc w).
Proof. intros H. unfold row_dist. rewrite (proj2 (sigint_cases sigint ncol w) H). reflexivity. Qed.
Lemma row_dist_bad L np sigint ncol w dc : ~ passes_sigint sigint ncol w ->
  row_dist L dc np sigint ncol w = if dc then 100000000000 else -100000000000.
Proof.
  intros H. unfold row_dist. destruct (existsb _ _) eqn:E; [reflexivity|]. exfalso. apply H, sigint_cases, E.
Qed.

Lemma row_dist_nonneg L np sigint ncol w : gsl_ok ncol L -> symmetric ncol (r_cov w) ->
  0 <= row_dist L true np sigint ncol w.
Proof.
  intros OK Hs. destruct (existsb (fun j => Rltb (r_cov w j j) (sigint * sigint)) (seq 0 ncol)) eqn:E.
  - unfold row_dist. rewrite E. lra.
  - rewrite row_dist_chi by (apply sigint_cases; exact E).
    apply (chi_nonneg ncol L OK _ _ min_eigenval min_eig_pos). apply fix_above; [exact OK|apply row_cov_sym, Hs].
Qed.

(** * only the first ncol (nmag) values matter *)
Definition row_eq (ncol : nat) (w w' : row) : Prop :=
  (forall j k, (j < ncol)%nat -> (k < ncol)%nat -> r_cov w j k = r_cov w' j k) /\
  (forall j, (j < ncol)%nat -> r_c w j = r_c w' j /\ r_slope_ci w j = r_slope_ci w' j /\ r_slope w j = r_slope w' j
      /\ r_color w j = r_color w' j /\ r_lup w j = r_lup w' j) /\
  (forall j, (j < ncol + 1)%nat -> r_magerr w j = r_magerr w' j) /\
  r_piv w = r_piv w' /\ r_refmag w = r_refmag w' /\ r_refmagerr w = r_refmagerr w'.

Lemma row_cov_eq np ncol w w' : row_eq ncol w w' -> forall j k, (j < ncol)%nat -> (k < ncol)%nat ->
  row_cov np ncol w j k = row_cov np ncol w' j k.
Proof.
  intros (Hc & Hv & Hm & Hp & Hr & He) j k Hj Hk. unfold row_cov. rewrite (Hc j k Hj Hk), !cimat_entry, He.
  destruct (Hv j Hj) as (_ & -> & _). destruct (Hv k Hk) as (_ & -> & _). f_equal. f_equal.
  destruct np; [reflexivity|]. rewrite !cobsmat_entry. apply sumn_ext. intros l Hl. rewrite (Hm l Hl). reflexivity.
Qed.
Lemma row_dist_eq L dc np sigint ncol w w' : row_eq ncol w w' ->
  row_dist L dc np sigint ncol w = row_dist L dc np sigint ncol w'.
Proof.
  intros H. pose proof (row_cov_eq np ncol w w' H) as Hm. destruct H as (Hc & Hv & _ & Hp & Hr & _).
  unfold row_dist.
  assert (E : existsb (fun j => Rltb (r_cov w j j) (sigint * sigint)) (seq 0 ncol)
            = existsb (fun j => Rltb (r_cov w' j j) (sigint * sigint)) (seq 0 ncol)).
  { apply eq_true_iff_eq. rewrite !existsb_exists.
    split; intros (j & Hj & Hb); exists j; (split; [exact Hj|]); apply in_seq in Hj;
      [rewrite <- (Hc j j) by lia|rewrite (Hc j j) by lia]; exact Hb. }
  rewrite E. clear E. destruct (existsb (fun j => Rltb (r_cov w' j j) (sigint * sigint)) (seq 0 ncol)); [reflexivity|].
  assert (Ht : tab ncol (fix_covmat L ncol (row_cov np ncol w)) = tab ncol (fix_covmat L ncol (row_cov np ncol w')))
    by (apply tab_ext; intros i j Hi Hj; apply fix_ext; assumption).
  cbv zeta. rewrite Ht.
  assert (Hd : forall j, (j < ncol)%nat -> row_vdc w j = row_vdc w' j).
  { intros j Hj. unfold row_vdc. destruct (Hv j Hj) as (-> & _ & -> & -> & ->). rewrite Hp, Hr. reflexivity. }
  assert (Hx : sumn ncol (fun i => sumn ncol (fun j => lu_inv L ncol (tab ncol (fix_covmat L ncol (row_cov np ncol w'))) i j * row_vdc w j) * row_vdc w i)
             = sumn ncol (fun i => sumn ncol (fun j => lu_inv L ncol (tab ncol (fix_covmat L ncol (row_cov np ncol w'))) i j * row_vdc w' j) * row_vdc w' i)).
  { apply sumn_ext. intros i Hi. rewrite (Hd i Hi). f_equal. apply sumn_ext. intros j Hj. rewrite (Hd j Hj). reflexivity. }
  rewrite Hx. reflexivity.
Qed.

(** * layouts *)
Lemma at2_ok {A} n (f : nat -> nat -> A) i j : (j < n)%nat -> at2 n f (i * n + j)%nat = f i j.
Proof.
  intros Hj. unfold at2.
  rewrite Nat.div_add_l, (Nat.div_small j n Hj) by lia.
  rewrite (Nat.add_comm (i * n) j), Nat.mod_add, (Nat.mod_small j n Hj) by lia. f_equal. lia.
Qed.
Lemma stack_ok t ncol zs i j k : (j < ncol)%nat -> (k < ncol)%nat ->
  cov_stack t ncol zs (ncol * ncol * i + (j * ncol + k))%nat = z_cov (t_row t (zs i)) j k.
Proof.
  intros Hj Hk. unfold cov_stack. rewrite (Nat.mul_comm (ncol * ncol) i), at2_ok by nia. apply at2_ok, Hk.
Qed.

Lemma dist_nth L mode dc np sigint ncol ncalc a i : (i < ncalc)%nat ->
  nth_error (chisq_dist L mode dc np sigint ncol ncalc a) i
  = Some (row_dist L dc np sigint ncol (mode_row mode ncol a i)).
Proof.
  intros Hi. unfold chisq_dist. rewrite nth_error_map.
  rewrite nth_error_nth' with (d := O) by (rewrite seq_length; exact Hi).
  rewrite seq_nth by exact Hi. reflexivity.
Qed.

Lemma one_z_rows t ncol gs zi i : row_eq ncol (row0 ncol (call_one_z t ncol gs zi) i) (pair_row t (gs i) zi).
Proof.
  unfold row_eq, row0, call_one_z, pair_row; cbn. repeat split.
  - intros j k Hj Hk. apply at2_ok, Hk.
  - rewrite at2_ok by assumption; reflexivity.
  - rewrite at2_ok by assumption; reflexivity.
  - intros j Hj. apply (at2_ok (ncol + 1) (fun i => scaled_err t (gs i))), Hj.
Qed.
Lemma one_gal_rows t ncol g zs i : row_eq ncol (row1 ncol (call_one_gal t ncol g zs) i) (pair_row t g (zs i)).
Proof.
  unfold row_eq, row1, call_one_gal, pair_row; cbn. repeat split; try (rewrite at2_ok by assumption; reflexivity).
  intros j k Hj Hk. apply stack_ok; assumption.
Qed.
Definition pair_row2 (t : rstab) (gs : nat -> gal) (zs : nat -> nat) (i : nat) : row :=
  {| r_cov := z_cov (t_row t (zs i)); r_c := z_c (t_row t (zs i));
     r_slope_ci := z_slope (t_row t (zs O)); r_slope := z_slope (t_row t (zs i));
     r_piv := z_piv (t_row t (zs i)); r_refmag := g_mag (gs i); r_refmagerr := g_magerr (gs i);
     r_magerr := scaled_err t (gs i); r_color := g_color (gs i);
     r_lup := t_lup t (t_magind t (g_mag (gs i))) (zs i) |}.
Lemma pairs_rows t ncol gs zs i : row_eq ncol (row2 ncol (call_pairs t ncol gs zs) i) (pair_row2 t gs zs i).
Proof.
  unfold row_eq, row2, call_pairs, pair_row2; cbn. repeat split; try (rewrite at2_ok by assumption; reflexivity).
  - intros j k Hj Hk. apply stack_ok; assumption.
  - apply (at2_ok ncol (fun i => z_slope (t_row t (zs i))) O), H.
  - intros j Hj. apply (at2_ok (ncol + 1) (fun i => scaled_err t (gs i))), Hj.
Qed.

(** * what is read *)
Definition readsIn (mode ncol i : nat) (x : arr) (p : nat) : Prop :=
  match x with
  | Acov => exists j k, (j < ncol)%nat /\ (k < ncol)%nat /\ p = (match mode with O => 0 | _ => ncol * ncol * i end + (j * ncol + k))%nat
  | Ac => exists j, (j < ncol)%nat /\ p = (match mode with O => j | _ => i * ncol + j end)%nat
  | Aslope => exists j, (j < ncol)%nat /\ (p = (match mode with O => j | _ => i * ncol + j end)%nat
                \/ ((2 <= mode)%nat /\ p = j))
  | Apiv => p = match mode with O => O | _ => i end
  | Arefmag | Arefmagerr => p = match mode with S O => O | _ => i end
  | Amagerr => exists j, (j < ncol + 1)%nat /\ p = match mode with S O => j | _ => (i * (ncol + 1) + j)%nat end
  | Acolor => exists j, (j < ncol)%nat /\ p = match mode with S O => j | _ => (i * ncol + j)%nat end
  | Alup => exists j, (j < ncol)%nat /\ p = (i * ncol + j)%nat
  end.
Lemma reads_In mode ncol ncalc x p :
  In (x, p) (reads mode ncol ncalc) <-> exists i, (i < ncalc)%nat /\ readsIn mode ncol i x p.
Proof.
  unfold reads. rewrite in_flat_map. split.
  - intros (i & Hi & H). apply in_seq in Hi. exists i. split; [lia|].
    repeat (apply in_app_or in H; destruct H as [H|H]).
    + apply in_flat_map in H as (j & Hj & H). apply in_map_iff in H as (k & [= <- <-] & Hk).
      apply in_seq in Hj, Hk. exists j, k. repeat split; lia.
    + apply in_map_iff in H as (j & [= <- <-] & Hj). apply in_seq in Hj. exists j. split; [lia|reflexivity].
    + apply in_map_iff in H as (j & [= <- <-] & Hj). apply in_seq in Hj. exists j. split; [lia|left; reflexivity].
    + destruct mode as [|[|m]]; [destruct H..|]. apply in_map_iff in H as (j & [= <- <-] & Hj). apply in_seq in Hj.
      exists j. split; [lia|right; split; [lia|reflexivity]].
    + destruct H as [[= <- <-]|[]]. reflexivity.
    + destruct H as [[= <- <-]|[]]. reflexivity.
    + destruct H as [[= <- <-]|[]]. reflexivity.
    + apply in_map_iff in H as (j & [= <- <-] & Hj). apply in_seq in Hj. exists j. split; [lia|reflexivity].
    + apply in_map_iff in H as (j & [= <- <-] & Hj). apply in_seq in Hj. exists j. split; [lia|reflexivity].
    + apply in_map_iff in H as (j & [= <- <-] & Hj). apply in_seq in Hj. exists j. split; [lia|reflexivity].
  - intros (i & Hi & H). exists i. split; [apply in_seq; lia|]. rewrite !in_app_iff.
    destruct x; cbn [readsIn] in H.
    + left. destruct H as (j & k & Hj & Hk & ->). apply in_flat_map. exists j. split; [apply in_seq; lia|].
      apply in_map_iff. exists k. split; [reflexivity|apply in_seq; lia].
    + right; left. destruct H as (j & Hj & ->). apply in_map_iff. exists j. split; [reflexivity|apply in_seq; lia].
    + right; right. destruct H as (j & Hj & [->|[Hm ->]]); [left|right; left].
      * apply in_map_iff. exists j. split; [reflexivity|apply in_seq; lia].
      * destruct mode as [|[|m]]; [lia|lia|]. apply in_map_iff. exists j. split; [reflexivity|apply in_seq; lia].
    + do 4 right; left. left. subst. reflexivity.
    + do 5 right; left. left. subst. reflexivity.
    + do 6 right; left. left. subst. reflexivity.
    + do 7 right; left. destruct H as (j & Hj & ->). apply in_map_iff. exists j. split; [reflexivity|apply in_seq; lia].
    + do 8 right; left. destruct H as (j & Hj & ->). apply in_map_iff. exists j. split; [reflexivity|apply in_seq; lia].
    + do 9 right. destruct H as (j & Hj & ->). apply in_map_iff. exists j. split; [reflexivity|apply in_seq; lia].
Qed.

Lemma reads_enough L mode dc np sigint ncol ncalc a a' :
  (forall x p, In (x, p) (reads mode ncol ncalc) -> sel a x p = sel a' x p) ->
  chisq_dist L mode dc np sigint ncol ncalc a = chisq_dist L mode dc np sigint ncol ncalc a'.
Proof.
  intros H. unfold chisq_dist. apply map_ext_in. intros i Hi. apply in_seq in Hi. apply row_dist_eq.
  assert (Hr : forall x p, readsIn mode ncol i x p -> sel a x p = sel a' x p)
    by (intros x p Hp; apply H, reads_In; exists i; split; [lia|exact Hp]).
  destruct mode as [|[|m]]; unfold row_eq, mode_row, row0, row1, row2; cbn; repeat split; intros;
  repeat match goal with
  | |- a_cov a _ = _ => apply (Hr Acov); exists j, k; split; [assumption|split; [assumption|reflexivity]]
  | |- a_c a _ = _ => apply (Hr Ac); cbn; eexists; split; [|reflexivity]; assumption
  | |- a_piv a _ = _ => apply (Hr Apiv); reflexivity
  | |- a_refmag a _ = _ => apply (Hr Arefmag); reflexivity
  | |- a_refmagerr a _ = _ => apply (Hr Arefmagerr); reflexivity
  | |- a_magerr a _ = _ => apply (Hr Amagerr); cbn; eexists; split; [|reflexivity]; assumption
  | |- a_color a _ = _ => apply (Hr Acolor); cbn; eexists; split; [|reflexivity]; assumption
  | |- a_lup a _ = _ => apply (Hr Alup); cbn; eexists; split; [|reflexivity]; assumption
  end; apply (Hr Aslope); cbn; (exists j; split; [assumption|]); try (left; reflexivity).
  right. split; [lia|reflexivity].
Qed.

(** * shapes *)
Lemma need_ok b u : need b = Ok u -> b = true.
Proof. destruct b; [reflexivity|discriminate]. Qed.
Lemma dim_ok s k d : dim s k = Ok d -> nth_error s k = Some d.
Proof. unfold dim. destruct (nth_error s k); [intros H; injection H as ->; reflexivity|discriminate]. Qed.
Lemma need2_ok s a b u : need2 s a b = Ok u -> exists r, s = a :: b :: r.
Proof.
  unfold need2, dim. destruct s as [|d0 [|d1 r]]; cbn; [discriminate| |].
  - destruct (Nat.eqb d0 a); discriminate.
  - destruct (Nat.eqb_spec d0 a); [|discriminate]. destruct (Nat.eqb_spec d1 b); [|discriminate].
    intros _. subst. exists r. reflexivity.
Qed.
Ltac chk H := repeat match type of H with
  | bind (need true) _ = _ => cbn [need bind] in H
  | bind (need ?b) _ = _ => let E := fresh "E" in destruct (need b) eqn:E; [|discriminate H]; apply need_ok in E; apply Nat.eqb_eq in E; cbn [bind] in H
  | bind (need2 ?s ?a ?b) _ = _ => let E := fresh "E" in destruct (need2 s a b) eqn:E; [|discriminate H]; apply need2_ok in E; cbn [bind] in H
  | bind (dim ?s ?k) _ = _ => let E := fresh "E" in destruct (dim s k) eqn:E; [|discriminate H]; apply dim_ok in E; cbn [bind] in H
  end.


Lemma len1 {A} (l : list A) : length l = 1%nat -> exists a, l = [a].
Proof. destruct l as [|a [|]]; try discriminate. intros _. exists a. reflexivity. Qed.
Definition chk0 (s : shapes) (ncol ncalc : nat) : Prop :=
  s_c s = [ncol] /\ s_slope s = [ncol] /\ (exists r, atleast_1d (s_piv s) = 1%nat :: r) /\ s_cov s = [ncol; ncol] /\
  size (atleast_1d (s_refmag s)) = ncalc /\ s_magerr s = [ncalc; (ncol + 1)%nat] /\ s_color s = [ncalc; ncol] /\
  (exists r, shape_of s ncol ncalc Alup = ncalc :: ncol :: r) /\ size (shape_of s ncol ncalc Arefmagerr) = ncalc.
Definition chk1 (s : shapes) (ncol nz : nat) : Prop :=
  s_c s = [nz; ncol] /\ s_slope s = [nz; ncol] /\ size (atleast_1d (s_piv s)) = nz /\ s_cov s = [ncol; ncol; nz] /\
  s_magerr s = [(ncol + 1)%nat] /\ s_color s = [ncol] /\
  (exists r, shape_of s ncol nz Alup = nz :: ncol :: r) /\ (exists r, shape_of s ncol nz Arefmagerr = 1%nat :: r).
Definition chk2 (s : shapes) (ncol nz : nat) : Prop :=
  s_c s = [nz; ncol] /\ s_slope s = [nz; ncol] /\ size (atleast_1d (s_piv s)) = nz /\
  (exists a b, s_cov s = [a; b; nz]) /\ s_magerr s = [nz; (ncol + 1)%nat] /\ s_color s = [nz; ncol] /\
  (exists r, shape_of s ncol nz Alup = nz :: ncol :: r) /\ size (shape_of s ncol nz Arefmagerr) = nz.

Lemma two (l : list nat) a b r : l = a :: b :: r -> length l = 2%nat -> l = [a; b].
Proof. intros ->. destruct r; [reflexivity|discriminate]. Qed.
Lemma hd1 (l : list nat) a : nth_error l 0 = Some a -> exists r, l = a :: r.
Proof. destruct l as [|b r]; [discriminate|]. cbn. intros [= ->]. exists r. reflexivity. Qed.
Lemma one1 (l : list nat) a : nth_error l 0 = Some a -> length l = 1%nat -> l = [a].
Proof. destruct l as [|b [|]]; try discriminate. cbn. intros [= ->] _. reflexivity. Qed.
Lemma size1 (l : list nat) k : size l = k -> length l = 1%nat -> l = [k].
Proof. destruct l as [|b [|]]; try discriminate. cbn. intros <- _. f_equal. lia. Qed.
Lemma three (l : list nat) c : length l = 3%nat -> nth_error l 2 = Some c -> exists a b, l = [a; b; c].
Proof. destruct l as [|x [|y [|z [|]]]]; try discriminate. cbn. intros _ [= ->]. exists x, y. reflexivity. Qed.
Ltac fin := repeat match goal with
  | H : exists r, _ = _ |- _ => destruct H as (? & H)
  | H : nth_error [_; _] 0 = Some _ |- _ => cbn in H; injection H as <-
  | H : ?a = _ |- _ => is_var a; subst a
  end;
  try match goal with
  | |- ?l = [_; _] => solve [eapply two; eassumption]
  | |- exists r, ?l = _ => solve [eexists; eassumption|apply hd1; assumption]
  | |- ?l = [_] => solve [apply one1; assumption|apply size1; assumption]
  | |- exists a b, _ = _ => solve [apply three; assumption]
  end; try assumption; try reflexivity.
Lemma check_char s mode ncol ncalc : check_shapes s = Ok (mode, ncol, ncalc) ->
  (mode = 0%nat /\ chk0 s ncol ncalc) \/ (mode = 1%nat /\ chk1 s ncol ncalc) \/ (mode = 2%nat /\ chk2 s ncol ncalc).
Proof.
  intros H. unfold check_shapes in H.
  destruct (s_c s) as [|n1 [|n2 [|]]] eqn:Ec; cbn [bind] in H; try discriminate.
  - chk H. injection H as <- <- <-. left. split; [reflexivity|]. unfold chk0.
    repeat split; fin.
  - destruct (Nat.eqb (length (s_magerr s)) 1) eqn:Em; cbn [bind] in H.
    + apply Nat.eqb_eq in Em. chk H. injection H as <- <- <-. right; left. split; [reflexivity|]. unfold chk1.
      repeat split; fin.
      match goal with H : length ?l = 3%nat, H' : nth_error ?l 2%nat = _ |- _ => destruct (three _ _ H H') as (? & ? & ?Hx) end.
      congruence.
    + chk H. injection H as <- <- <-. right; right. split; [reflexivity|]. unfold chk2.
      repeat split; fin.
Qed.

Lemma idx2 i a j b : (i < a)%nat -> (j < b)%nat -> (i * b + j < a * (b * 1))%nat.
Proof. nia. Qed.

Lemma lup2 s ncol ncalc r : plain s -> shape_of s ncol ncalc Alup = ncalc :: ncol :: r -> r = [].
Proof.
  intros (_ & H & _). cbn. destruct (s_lup s) as [t|] eqn:E.
  - intros ->. specialize (H _ eq_refl). destruct r; [reflexivity|discriminate].
  - intros [= <-]. reflexivity.
Qed.

Lemma bounds s mode ncol ncalc x p : check_shapes s = Ok (mode, ncol, ncalc) -> plain s ->
  (mode <> 0%nat -> (1 <= size (atleast_1d (s_refmag s)))%nat) ->
  (mode = 2%nat -> (ncalc <= size (atleast_1d (s_refmag s)))%nat /\ s_cov s = [ncol; ncol; ncalc]) ->
  In (x, p) (reads mode ncol ncalc) -> (p < size (shape_of s ncol ncalc x))%nat.
Proof.
  intros H Hp Hm1 Hm2 Hr. apply reads_In in Hr as (i & Hi & Hr).
  destruct (check_char s mode ncol ncalc H) as [[-> C]|[[-> C]|[-> C]]].
  - destruct C as (Hc & Hs & (rp & Hpv) & Hcov & Hrm & Hme & Hcol & (rl & Hl) & Hre).
    destruct x; cbn [readsIn] in Hr.
    + destruct Hr as (j & k & Hj & Hk & ->). cbn [shape_of]. rewrite Hcov. cbn [size fold_right]. nia.
    + destruct Hr as (j & Hj & ->). cbn [shape_of]. rewrite Hc. cbn [size fold_right]. lia.
    + destruct Hr as (j & Hj & [->|[? _]]); [|lia]. cbn [shape_of]. rewrite Hs. cbn [size fold_right]. lia.
    + subst p. cbn [shape_of]. destruct Hp as (Hp & _). rewrite Hpv in Hp |- *. destruct rp; [cbn; lia|discriminate].
    + subst p. cbn [shape_of]. lia.
    + subst p. rewrite Hre. exact Hi.
    + destruct Hr as (j & Hj & ->). cbn [shape_of]. rewrite Hme. cbn [size fold_right]. nia.
    + destruct Hr as (j & Hj & ->). cbn [shape_of]. rewrite Hcol. cbn [size fold_right]. nia.
    + destruct Hr as (j & Hj & ->). rewrite Hl, (lup2 _ _ _ _ Hp Hl). cbn [size fold_right]. nia.
  - destruct C as (Hc & Hs & Hpv & Hcov & Hme & Hcol & (rl & Hl) & (re & Hre)).
    destruct x; cbn [readsIn] in Hr.
    + destruct Hr as (j & k & Hj & Hk & ->). cbn [shape_of]. rewrite Hcov. cbn [size fold_right].
      assert (j * ncol + k < ncol * ncol)%nat by nia. assert (ncol * ncol * i + (ncol * ncol) <= ncol * ncol * ncalc)%nat by nia. nia.
    + destruct Hr as (j & Hj & ->). cbn [shape_of]. rewrite Hc. cbn [size fold_right]. nia.
    + destruct Hr as (j & Hj & [->|[? _]]); [|lia]. cbn [shape_of]. rewrite Hs. cbn [size fold_right]. nia.
    + subst p. cbn [shape_of]. lia.
    + subst p. cbn [shape_of]. specialize (Hm1 ltac:(lia)). lia.
    + subst p. rewrite Hre. destruct Hp as (_ & _ & Hp). cbn [shape_of] in Hre.
      destruct (s_refmagerr s) as [t|]; [|injection Hre as _ <-; cbn; lia].
      specialize (Hp _ eq_refl). destruct t as [|t0 [|]]; cbn in Hp, Hre; [injection Hre as <-; cbn; lia|injection Hre as -> <-; cbn; lia|lia].
    + destruct Hr as (j & Hj & ->). cbn [shape_of]. rewrite Hme. cbn [size fold_right]. nia.
    + destruct Hr as (j & Hj & ->). cbn [shape_of]. rewrite Hcol. cbn [size fold_right]. nia.
    + destruct Hr as (j & Hj & ->). rewrite Hl, (lup2 _ _ _ _ Hp Hl). cbn [size fold_right]. nia.
  - destruct C as (Hc & Hs & Hpv & _ & Hme & Hcol & (rl & Hl) & Hre). destruct (Hm2 eq_refl) as (Hrm & Hcov).
    destruct x; cbn [readsIn] in Hr.
    + destruct Hr as (j & k & Hj & Hk & ->). cbn [shape_of]. rewrite Hcov. cbn [size fold_right].
      assert (j * ncol + k < ncol * ncol)%nat by nia. assert (ncol * ncol * i + (ncol * ncol) <= ncol * ncol * ncalc)%nat by nia. nia.
    + destruct Hr as (j & Hj & ->). cbn [shape_of]. rewrite Hc. cbn [size fold_right]. nia.
    + cbn [shape_of]. rewrite Hs. cbn [size fold_right]. destruct Hr as (j & Hj & [->|[_ ->]]); nia.
    + subst p. cbn [shape_of]. lia.
    + subst p. cbn [shape_of]. lia.
    + subst p. rewrite Hre. exact Hi.
    + destruct Hr as (j & Hj & ->). cbn [shape_of]. rewrite Hme. cbn [size fold_right]. nia.
    + destruct Hr as (j & Hj & ->). cbn [shape_of]. rewrite Hcol. cbn [size fold_right]. nia.
    + destruct Hr as (j & Hj & ->). rewrite Hl, (lup2 _ _ _ _ Hp Hl). cbn [size fold_right]. nia.
Qed.

(** * a library for one and two colors *)
Definition ent (l : list (list R)) (i j : nat) : R := nth j (nth i l []) 0.
Definition disc (l : list (list R)) : R :=
  sqrt (((ent l 0 0 - ent l 1 1) / 2) * ((ent l 0 0 - ent l 1 1) / 2) + ent l 0 1 * ent l 0 1).
Definition ev2 (l : list (list R)) (i : nat) : R :=
  (ent l 0 0 + ent l 1 1) / 2 + (match i with O => -1 | _ => 1 end) * disc l.
Definition small_gsl : gsl :=
  {| eigvals := fun n l i => match n with 1%nat => ent l 0 0 | _ => ev2 l i end;
     eigvecs := fun n l i j => match n with
        | 1%nat => 1
        | _ => if Req_EM_T (ent l 0 1) 0 then (if Nat.eqb i j then 1 else 0)
               else match i with O => ent l 0 1 | _ => ev2 l j - ent l 0 0 end
                    / sqrt (ent l 0 1 * ent l 0 1 + (ev2 l j - ent l 0 0) * (ev2 l j - ent l 0 0)) end;
     lu_inv := fun n l i j => match n with
        | 1%nat => / ent l 0 0
        | _ => match i, j with
               | O, O => ent l 1 1 | O, _ => - ent l 0 1 | _, O => - ent l 1 0 | _, _ => ent l 0 0 end
               / (ent l 0 0 * ent l 1 1 - ent l 0 1 * ent l 1 0) end;
     lu_det := fun n l => match n with 1%nat => ent l 0 0 | _ => ent l 0 0 * ent l 1 1 - ent l 0 1 * ent l 1 0 end |}.

Lemma small_ok1 : gsl_ok 1 small_gsl.
Proof.
  constructor.
  - intros m Hm x i Hi. assert (i = O) by lia. subst i. unfold mvec. cbn.
    assert (Hn : m 0%nat 0%nat <> 0).
    { intros E. specialize (Hm (fun _ => 1)). assert ((fun _ : nat => 1) 0%nat = 0); [|cbn in *; lra].
      apply (Hm ltac:(intros i Hi'; assert (i = O) by lia; subst; unfold mvec; cbn; rewrite E; ring) O Hi). }
    unfold ent. cbn. field. exact Hn.
  - intros m _ a b Ha Hb. assert (a = O) by lia. assert (b = O) by lia. subst. cbn. ring.
  - intros m _ i Hi. exists (fun _ => 1). unfold norm2, mvec. cbn. split; [lra|]. intros k Hk.
    assert (k = O) by lia. subst. unfold ent. cbn. ring.
  - intros m lam _ H x. specialize (H O ltac:(lia)). unfold qform, norm2. cbn in *. unfold ent in H. cbn in H.
    pose proof (Rle_0_sqr (x 0%nat)). unfold Rsqr in *. nra.
  - intros m _ H. specialize (H (fun _ => 1)). unfold qform, norm2 in H. cbn in *. unfold ent. cbn. lra.
Qed.

Lemma lt2 i : (i < 2)%nat -> i = O \/ i = 1%nat. Proof. lia. Qed.
Section Two.
  Variable (a b d : R).
  Let s := sqrt (((a - d) / 2) * ((a - d) / 2) + b * b).
  Let l0 := (a + d) / 2 + -1 * s.
  Let l1 := (a + d) / 2 + 1 * s.
  Lemma s_sq : s * s = ((a - d) / 2) * ((a - d) / 2) + b * b.
  Proof. apply sqrt_sqrt. pose proof (Rle_0_sqr ((a - d) / 2)). pose proof (Rle_0_sqr b). unfold Rsqr in *. lra. Qed.
  Lemma s_nn : 0 <= s. Proof. apply sqrt_pos. Qed.
  Lemma l_prod : (l0 - a) * (l1 - a) = - (b * b).
  Proof. unfold l0, l1. pose proof s_sq. nra. Qed.
  Lemma l_root0 : (a - l0) * (d - l0) = b * b. Proof. unfold l0. pose proof s_sq. nra. Qed.
  Lemma l_root1 : (a - l1) * (d - l1) = b * b. Proof. unfold l1. pose proof s_sq. nra. Qed.
  Lemma s_ge : (a - d) / 2 <= s /\ - ((a - d) / 2) <= s.
  Proof.
    pose proof s_sq. pose proof s_nn. pose proof (Rle_0_sqr b). unfold Rsqr in *.
    split; apply Rnot_lt_le; intros Hlt; nra.
  Qed.
  Lemma l0_le : l0 <= a /\ l0 <= d. Proof. unfold l0. pose proof s_ge. lra. Qed.
  Lemma form_ge x y : l0 * (x * x + y * y) <= a * (x * x) + 2 * (b * (x * y)) + d * (y * y).
  Proof.
    destruct l0_le as [H1 H2]. pose proof l_root0 as Hr.
    set (p := a - l0) in *. set (q := d - l0) in *.
    assert (0 <= p) by (unfold p; lra). assert (0 <= q) by (unfold q; lra).
    assert (Hk : 0 <= p * (x * x) + 2 * (b * (x * y)) + q * (y * y)).
    { destruct (Rle_lt_or_eq_dec 0 p H) as [Hp|Hp].
      - apply Rmult_le_reg_l with p; [exact Hp|]. rewrite Rmult_0_r.
        replace (p * (p * (x * x) + 2 * (b * (x * y)) + q * (y * y)))
          with ((p * x + b * y) * (p * x + b * y) + (p * q - b * b) * (y * y)) by ring.
        rewrite Hr. replace (b * b - b * b) with 0 by ring.
        pose proof (Rle_0_sqr (p * x + b * y)). unfold Rsqr in *. lra.
      - rewrite <- Hp in *. assert (b * b = 0) by lra. assert (b = 0) by (destruct (Rmult_integral b b H3); assumption).
        subst b. pose proof (Rle_0_sqr y). unfold Rsqr in *. nra. }
    replace a with (p + l0) by (unfold p; ring). replace d with (q + l0) by (unfold q; ring). nra.
  Qed.
End Two.
Lemma sym2 m : symmetric 2 m -> m 1%nat 0%nat = m 0%nat 1%nat.
Proof. intros H. apply H; lia. Qed.

Lemma small_ok2 : gsl_ok 2 small_gsl.
Proof.
  constructor.
  - intros m Hm x i Hi.
    assert (Hn : m 0%nat 0%nat * m 1%nat 1%nat - m 0%nat 1%nat * m 1%nat 0%nat <> 0).
    { intros E.
      pose proof (Hm (fun i => match i with O => - m 0%nat 1%nat | _ => m 0%nat 0%nat end)
        ltac:(intros j Hj; destruct (lt2 j Hj) as [->| ->]; unfold mvec; cbn; lra)) as H1.
      pose proof (Hm (fun i => match i with O => m 1%nat 1%nat | _ => - m 1%nat 0%nat end)
        ltac:(intros j Hj; destruct (lt2 j Hj) as [->| ->]; unfold mvec; cbn; lra)) as H2.
      pose proof (H1 O ltac:(lia)) as A. pose proof (H1 1%nat ltac:(lia)) as B.
      pose proof (H2 O ltac:(lia)) as C. pose proof (H2 1%nat ltac:(lia)) as D. cbn in A, B, C, D.
      pose proof (Hm (fun _ => 1) ltac:(intros j Hj; destruct (lt2 j Hj) as [->| ->]; unfold mvec; cbn; lra) O ltac:(lia)) as F.
      cbn in F. lra. }
    destruct (lt2 i Hi) as [->| ->]; unfold mvec; cbn; unfold ent; cbn; field; exact Hn.
  - intros m Hs a b Ha Hb.
    destruct (Req_EM_T (m 0%nat 1%nat) 0) as [E|E].
    + destruct (lt2 a Ha) as [->| ->], (lt2 b Hb) as [->| ->]; cbn; unfold ent; cbn;
      (destruct (Req_EM_T (m 0%nat 1%nat) 0); [cbn; ring|contradiction]).
    + set (A := m 0%nat 0%nat) in *. set (B := m 0%nat 1%nat) in *. set (D := m 1%nat 1%nat) in *.
      assert (HB : 0 < B * B) by (pose proof (Rsqr_pos_lt B E); unfold Rsqr in *; lra).
      pose proof (l_prod A B D) as Hp.
      set (L0 := (A + D) / 2 + -1 * sqrt ((A - D) / 2 * ((A - D) / 2) + B * B)) in *.
      set (L1 := (A + D) / 2 + 1 * sqrt ((A - D) / 2 * ((A - D) / 2) + B * B)) in *.
      assert (H0 : 0 < B * B + (L0 - A) * (L0 - A)) by (pose proof (Rle_0_sqr (L0 - A)); unfold Rsqr in *; lra).
      assert (H1 : 0 < B * B + (L1 - A) * (L1 - A)) by (pose proof (Rle_0_sqr (L1 - A)); unfold Rsqr in *; lra).
      pose proof (sqrt_lt_R0 _ H0) as P0. pose proof (sqrt_lt_R0 _ H1) as P1.
      pose proof (sqrt_sqrt _ (Rlt_le _ _ H0)) as S0. pose proof (sqrt_sqrt _ (Rlt_le _ _ H1)) as S1.
      set (R0 := sqrt (B * B + (L0 - A) * (L0 - A))) in *. set (R1 := sqrt (B * B + (L1 - A) * (L1 - A))) in *.
      destruct (lt2 a Ha) as [->| ->], (lt2 b Hb) as [->| ->]; cbn; unfold ev2, disc, ent; cbn; fold A B D;
      (destruct (Req_EM_T B 0); [contradiction|]); fold L0 L1; fold R0 R1.
      * replace (0 + B / R0 * (B / R0) + (L0 - A) / R0 * ((L0 - A) / R0)) with ((B * B + (L0 - A) * (L0 - A)) / (R0 * R0)) by (field; lra).
        rewrite S0. field. lra.
      * replace (0 + B / R0 * (B / R1) + (L0 - A) / R0 * ((L1 - A) / R1)) with ((B * B + (L0 - A) * (L1 - A)) / (R0 * R1)) by (field; lra).
        rewrite Hp. field. lra.
      * replace (0 + B / R1 * (B / R0) + (L1 - A) / R1 * ((L0 - A) / R0)) with ((B * B + (L0 - A) * (L1 - A)) / (R0 * R1)) by (field; lra).
        rewrite Hp. field. lra.
      * replace (0 + B / R1 * (B / R1) + (L1 - A) / R1 * ((L1 - A) / R1)) with ((B * B + (L1 - A) * (L1 - A)) / (R1 * R1)) by (field; lra).
        rewrite S1. field. lra.
  - intros m Hs i Hi. pose proof (sym2 m Hs) as Hb.
    pose proof (l_root0 (m 0%nat 0%nat) (m 0%nat 1%nat) (m 1%nat 1%nat)) as H0.
    pose proof (l_root1 (m 0%nat 0%nat) (m 0%nat 1%nat) (m 1%nat 1%nat)) as H1.
    set (A := m 0%nat 0%nat) in *. set (B := m 0%nat 1%nat) in *. set (D := m 1%nat 1%nat) in *.
    assert (HL : exists lam, eigvals small_gsl 2 (tab 2 m) i = lam /\ (A - lam) * (D - lam) = B * B).
    { destruct (lt2 i Hi) as [->| ->]; eexists; (split; [reflexivity|]);
        cbn; unfold ev2, disc, ent; cbn; fold A B D; assumption. }
    destruct HL as (lam & -> & HL).
    destruct (Req_EM_T B 0) as [E|E].
    + rewrite E in HL. destruct (Rmult_integral (A - lam) (D - lam)) as [Hz|Hz]; [lra| |].
      * exists (fun k => match k with O => 1 | _ => 0 end). unfold norm2, mvec. cbn. split; [lra|].
        intros k Hk. destruct (lt2 k Hk) as [->| ->]; fold A B D; [lra|]. rewrite Hb, E. lra.
      * exists (fun k => match k with O => 0 | _ => 1 end). unfold norm2, mvec. cbn. split; [lra|].
        intros k Hk. destruct (lt2 k Hk) as [->| ->]; fold A B D; [|lra]. rewrite E. lra.
    + exists (fun k => match k with O => B | _ => lam - A end). unfold norm2, mvec. cbn. split.
      * pose proof (Rsqr_pos_lt B E). pose proof (Rle_0_sqr (lam - A)). unfold Rsqr in *. lra.
      * intros k Hk. destruct (lt2 k Hk) as [->| ->]; fold A B D; [lra|]. rewrite Hb. nra.
  - intros m lam Hs H x. specialize (H O ltac:(lia)). pose proof (sym2 m Hs) as Hb.
    pose proof (form_ge (m 0%nat 0%nat) (m 0%nat 1%nat) (m 1%nat 1%nat) (x 0%nat) (x 1%nat)) as Hf.
    cbn in H. unfold ev2, disc, ent in H. cbn in H.
    unfold qform, norm2. cbn. rewrite Hb.
    set (l := (m 0%nat 0%nat + m 1%nat 1%nat) / 2 + -1 * sqrt _) in *.
    pose proof (Rle_0_sqr (x 0%nat)). pose proof (Rle_0_sqr (x 1%nat)). unfold Rsqr in *.
    assert (lam * (x 0%nat * x 0%nat + x 1%nat * x 1%nat) <= l * (x 0%nat * x 0%nat + x 1%nat * x 1%nat))
      by (apply Rmult_le_compat_r; lra).
    lra.
  - intros m Hs H. pose proof (sym2 m Hs) as Hb. cbn. unfold ent. cbn. rewrite Hb.
    pose proof (H (fun k => match k with O => 1 | _ => 0 end)) as H1. unfold qform, norm2 in H1. cbn in H1.
    pose proof (H (fun k => match k with O => - m 0%nat 1%nat | _ => m 0%nat 0%nat end)) as H2.
    unfold qform, norm2 in H2. cbn in H2. rewrite Hb in H2.
    assert (Ha : 0 < m 0%nat 0%nat) by lra.
    assert (0 < 0 + - m 0%nat 1%nat * - m 0%nat 1%nat + m 0%nat 0%nat * m 0%nat 0%nat)
      by (pose proof (Rle_0_sqr (m 0%nat 1%nat)); unfold Rsqr in *; nra).
    specialize (H2 H0). nra.
Qed.
