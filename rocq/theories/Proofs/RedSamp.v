(** Proofs about the galaxies of the redMaGiC calibration. *)
From Coq Require Import Reals Lra.
From Verif.Base Require Import Py PyLemmas.
From Verif.Model Require Import BkgGen Depth ErrBin RedSamp.
From Verif.Spec Require Import RedSamp.
From Verif.Proofs Require Import BkgGen Solver Depth ErrBin.
From Coq Require Import Lia List Permutation Sorting.Sorted. Import ListNotations.
Local Open Scope R_scope.

Lemma ceil_spec x : x <= IZR (ceilR x) < x + 1.
Proof. unfold ceilR. rewrite opp_IZR. destruct (base_Int_part (- x)). lra. Qed.
Lemma cost_spec k hi : 0 < c_bin k -> let c := cost_range k hi in fst c = c_lo k + c_buf k /\ hi - c_buf k <= snd c < hi - c_buf k + c_bin k /\ exists n, snd c - fst c = IZR n * c_bin k.
Proof.
  intros B. cbv zeta. unfold cost_range. cbn [fst snd]. set (a := c_lo k + c_buf k). set (x := (hi - c_buf k - a) / c_bin k). destruct (ceil_spec x) as [H1 H2].
  assert (E : x * c_bin k = hi - c_buf k - a) by (unfold x; field; lra). split; [reflexivity|]. split; [split; nra|]. exists (ceilR x). ring.
Qed.
Lemma exp_lt_iff a b : exp a < exp b <-> a < b.
Proof. split; intros H; [destruct (Rlt_or_le a b) as [L|[L| ->]]; [exact L|apply exp_increasing in L; lra|lra]|apply exp_increasing, H]. Qed.
Lemma lum_gt ms m a : 0 < a -> (m < ms - 25/10 * log10 a <-> a < lum ms m).
Proof.
  intros Ha. unfold lum, Rpower. rewrite <- (exp_ln a) at 2 by exact Ha. rewrite exp_lt_iff. unfold log10. pose proof ln10_pos as P.
  assert (E : ln a = ln a / ln 10 * ln 10) by (field; lra). set (l := ln a / ln 10) in *. split; intros H; nra.
Qed.
Lemma cushioned_pos e : 0 < cushioned e. Proof. unfold cushioned. pose proof (Rmax_r (e - 5/100) (1/10)). lra. Qed.
Lemma bright_iff mstar e g : Rltb (s_mag g) (mstar (s_z g) - 25/10 * log10 (cushioned e)) = true <-> bright mstar e g.
Proof.
  rewrite Rltb_iff, lum_gt by apply cushioned_pos. unfold bright, cushioned. set (l := lum _ _). split; intros H.
  - pose proof (Rmax_l (e - 5/100) (1/10)). pose proof (Rmax_r (e - 5/100) (1/10)). lra.
  - apply Rmax_lub_lt; tauto.
Qed.
Lemma min_eta_spec rs m : min_eta rs = Ok m -> (exists r, In r rs /\ r_eta r = m) /\ forall r, In r rs -> m <= r_eta r.
Proof.
  destruct rs as [|r t]; [discriminate|]. intros [= <-].
  assert (G : forall t a, (fold_left (fun m x => Rmin m (r_eta x)) t a = a \/ exists r, In r t /\ r_eta r = fold_left (fun m x => Rmin m (r_eta x)) t a) /\
     fold_left (fun m x => Rmin m (r_eta x)) t a <= a /\ forall r, In r t -> fold_left (fun m x => Rmin m (r_eta x)) t a <= r_eta r).
  { clear. induction t as [|x t IH]; intros a; cbn [fold_left]; [split; [left; reflexivity|split; [lra|intros r []]]|]. destruct (IH (Rmin a (r_eta x))) as (A & B & C). set (v := fold_left _ t _) in *.
    pose proof (Rmin_l a (r_eta x)). pose proof (Rmin_r a (r_eta x)). split; [|split; [lra|intros r [<-|I]; [lra|apply C, I]]].
    destruct A as [A|(r & I & E)]; [|right; exists r; split; [right; exact I|exact E]]. unfold Rmin in A. destruct (Rle_dec a (r_eta x)); [left; exact A|right; exists x; split; [left; reflexivity|congruence]]. }
  destruct (G t (r_eta r)) as (A & B & C). split; [|intros x [<-|I]; [exact B|apply C, I]]. destruct A as [A|(x & I & E)]; [exists r; split; [left; reflexivity|congruence]|exists x; split; [right; exact I|exact E]].
Qed.
Lemma may_iff mstar k m g : may_be mstar k (cushioned m) g = true <->
  c_lo k - 5/100 < s_z g < snd (cost_range k (c_hi k)) + 5/100 + c_buf k /\ s_chisq g < c_chi k /\ bright mstar m g.
Proof.
  unfold may_be. cbv zeta. rewrite !Bool.andb_true_iff. rewrite bright_iff. rewrite !Rltb_iff. replace (fst (cost_range k (c_hi k)) - 5/100 - c_buf k) with (c_lo k - 5/100) by (unfold cost_range; cbn [fst]; ring). tauto.
Qed.
(** ** the start values *)
Lemma insert_sorted x l : StronglySorted Rle l -> StronglySorted Rle (insertR x l).
Proof.
  induction l as [|y t IH]; intros H; cbn [insertR]; [repeat constructor|]. inversion_clear H as [|? ? S F]. destruct (Rle_dec x y) as [L|L].
  - constructor; [constructor; assumption|]. constructor; [exact L|]. eapply Forall_impl; [|exact F]. cbv beta. intros; lra.
  - constructor; [apply IH, S|]. apply Forall_forall. intros z I. apply (Permutation_in _ (insert_perm x t)) in I as [<-|I]; [lra|]. rewrite Forall_forall in F. apply F, I.
Qed.
Lemma sortR_sorted l : StronglySorted Rle (sortR l).
Proof. induction l as [|x t IH]; cbn [sortR]; [constructor|apply insert_sorted, IH]. Qed.
Lemma sortR_len l : List.length (sortR l) = List.length l.
Proof. apply Permutation_length, sortR_perm. Qed.
(** the number of densities below a value *)
Lemma below vol t n : 0 < vol -> forall a, let c := List.length (filter (fun d => Rltb d t) (map (fun i => INR i / vol) (seq a n))) in
  (c <= n)%nat /\ (forall i, (i < c)%nat -> INR (a + i) < t * vol) /\ ((c < n)%nat -> t * vol <= INR (a + c)).
Proof.
  intros V. assert (D : forall x, x / vol < t <-> x < t * vol). { intros x. assert (E : x / vol * vol = x) by (field; lra). split; intros H; nra. }
  induction n as [|n IH]; intros a; cbn [seq map filter]; [cbn; split; [lia|split; intros; lia]|]. specialize (IH (S a)). cbv zeta in *. set (l := filter (fun d => Rltb d t) (map (fun i => INR i / vol) (seq (S a) n))) in *. clearbody l. destruct IH as (A & B & C). destruct (Rltb (INR a / vol) t) eqn:E.
  - apply Rltb_iff, D in E. cbn [List.length]. split; [lia|]. split.
    + intros [|i] I; [rewrite Nat.add_0_r; exact E|]. replace (a + S i)%nat with (S a + i)%nat by lia. apply B. lia.
    + intros L. replace (a + S (List.length l))%nat with (S a + List.length l)%nat by lia. apply C. lia.
  - apply Rltb_false in E. assert (E' : t * vol <= INR a) by (destruct (Rle_or_lt (t * vol) (INR a)) as [X|X]; [exact X|apply D in X; lra]).
    assert (Z : List.length l = 0%nat).
    { destruct (List.length l) as [|c] eqn:X; [reflexivity|]. specialize (B 0%nat ltac:(lia)). rewrite Nat.add_0_r, S_INR in B. lra. }
    rewrite Z. split; [lia|]. split; [intros; lia|]. intros _. rewrite Nat.add_0_r. exact E'.
Qed.
Lemma start_spec vol n0 chis : 0 < vol -> chis <> [] -> exists i c, start_chi vol n0 chis = Ok c /\ nth_error (sortR chis) i = Some c /\
  (i = 0%nat \/ INR i - 1 < n0 / 10000 * vol) /\ (n0 / 10000 * vol <= INR i \/ S i = List.length chis).
Proof.
  intros V N. unfold start_chi. destruct (below vol (n0 * (1/10000)) (List.length chis) V 0) as (A & B & C). set (c := List.length (filter _ _)) in *. cbv zeta in *.
  assert (L : (0 < List.length chis)%nat) by (destruct chis; [congruence|cbn; lia]). set (n := List.length chis) in *.
  assert (I : Z.min (Z.of_nat c) (Z.of_nat n - 1) = Z.of_nat (Nat.min c (n - 1))) by lia. rewrite I. set (i := Nat.min c (n - 1)) in *. destruct (Z.ltb_spec (Z.of_nat i) 0); [lia|]. rewrite Nat2Z.id.
  destruct (nth_error (sortR chis) i) as [v|] eqn:E; [|apply nth_error_None in E; rewrite sortR_len in E; fold n in E; lia]. exists i, v. split; [reflexivity|]. split; [exact E|]. replace (n0 / 10000) with (n0 * (1/10000)) by field. split.
  - destruct i as [|j] eqn:Ei; [left; reflexivity|right]. assert (J : (j < c)%nat) by lia. apply B in J. rewrite S_INR. cbn [plus] in J. lra.
  - destruct (Nat.lt_ge_cases c n) as [X|X]; [|right; lia]. destruct (Nat.le_gt_cases c (n - 1)) as [Y|Y]; [|lia]. left. assert (i = c) by lia. specialize (C X). rewrite H0. exact C.
Qed.
Lemma mapN_ok {A} (f : nat -> res A) n : forall i, (forall j, (i <= j < i + n)%nat -> exists x, f j = Ok x) -> exists l, mapN f n i = Ok l /\ List.length l = n /\ forall j, (j < n)%nat -> exists x, nth_error l j = Some x /\ f (i + j)%nat = Ok x.
Proof.
  induction n as [|n IH]; intros i H; cbn [mapN]; [exists []; split; [reflexivity|split; [reflexivity|intros; lia]]|]. destruct (H i ltac:(lia)) as [x X]. destruct (IH (S i)) as (l & L & N & G); [intros j J; apply H; lia|].
  rewrite X. cbn [bind]. rewrite L. cbn [bind]. exists (x :: l). split; [reflexivity|]. split; [cbn; lia|]. intros [|j] J; [exists x; split; [reflexivity|rewrite Nat.add_0_r; exact X]|]. destruct (G j ltac:(lia)) as (y & Y1 & Y2). exists y. split; [exact Y1|]. replace (i + S j)%nat with (S i + j)%nat by lia. exact Y2.
Qed.
Lemma mapN_err {A} (f : nat -> res A) n e : forall i j, (forall m e', f m = Err e' -> e' = e) -> (i <= j < i + n)%nat -> f j = Err e -> mapN f n i = Err e.
Proof.
  induction n as [|n IH]; intros i j H J E; [lia|]. cbn [mapN]. destruct (f i) as [x|e'] eqn:F; cbn [bind]; [|rewrite (H i e' F); reflexivity].
  destruct (Nat.eq_dec i j) as [->|D]; [congruence|]. rewrite (IH (S i) j H ltac:(lia) E). reflexivity.
Qed.
