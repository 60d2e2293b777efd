(** Proofs about the medians of the calibration sample. *)
From Coq Require Import Reals Lra Ascii String.
From Verif.Base Require Import Py PyLemmas.
From Verif.Model Require Import Names BkgGen Depth ColFit ErrBin MedCol.
From Verif.Spec Require Import MedCol.
From Verif.Proofs Require Import Names BkgGen Solver Depth ColFit ErrBin.
From Coq Require Import Lia List Permutation. Import ListNotations.
Local Open Scope R_scope.

(** ** the range of magnitudes *)
Lemma exp_le_iff a b : exp a <= exp b <-> a <= b.
Proof. split; intros H; [destruct (Rle_or_lt a b) as [L|L]; [exact L|apply exp_increasing in L; lra]|destruct H as [H| ->]; [left; apply exp_increasing, H|lra]]. Qed.
Lemma lum_ge ms m a : 0 < a -> (a <= lum ms m <-> m <= ms - 25/10 * log10 a).
Proof.
  intros Ha. unfold lum, Rpower. rewrite <- (exp_ln a) at 1 by exact Ha. rewrite exp_le_iff. unfold log10. pose proof ln10_pos as P.
  assert (E : ln a = ln a / ln 10 * ln 10) by (field; lra). set (l := ln a / ln 10) in *. split; intros H; nra.
Qed.
Lemma lum_le ms m a : 0 < a -> (lum ms m <= a <-> ms - 25/10 * log10 a <= m).
Proof.
  intros Ha. unfold lum, Rpower. rewrite <- (exp_ln a) at 1 by exact Ha. rewrite exp_le_iff. unfold log10. pose proof ln10_pos as P.
  assert (E : ln a = ln a / ln 10 * ln 10) by (field; lra). set (l := ln a / ln 10) in *. split; intros H; nra.
Qed.
Lemma log10_lt a b : 0 < a -> a < b -> log10 a < log10 b.
Proof. intros H L. unfold log10. apply Rmult_lt_compat_r; [apply Rinv_0_lt_compat, ln10_pos|apply ln_increasing; assumption]. Qed.

(** ** the first smallest *)
Lemma argmin_first_from l : forall i best v, (argmin_from l i best v = best /\ forall w, In w l -> v <= w) \/
  (exists j w, argmin_from l i best v = (i + j)%nat /\ nth_error l j = Some w /\ w < v /\ (forall y, In y l -> w <= y) /\ forall j' y, (j' < j)%nat -> nth_error l j' = Some y -> w < y).
Proof.
  induction l as [|x l IH]; intros i best v; cbn [argmin_from]; [left; split; [reflexivity|intros w []]|]. destruct (Rltb x v) eqn:E.
  - apply Rltb_iff in E. right. destruct (IH (S i) i x) as [[K H]|(j & w & K & N & L & A & F)].
    + exists O, x. split; [rewrite K; lia|]. split; [reflexivity|]. split; [exact E|]. split; [intros y [<-|Y]; [lra|apply H, Y]|intros; lia].
    + exists (S j), w. split; [rewrite K; lia|]. split; [exact N|]. split; [lra|]. split; [intros y [<-|Y]; [lra|apply A, Y]|]. intros [|j'] y J Y; [injection Y as <-; exact L|apply (F j'); [lia|exact Y]].
  - apply Rltb_false in E. destruct (IH (S i) best v) as [[K H]|(j & w & K & N & L & A & F)].
    + left. split; [exact K|]. intros w [<-|W]; [exact E|apply H, W].
    + right. exists (S j), w. split; [rewrite K; lia|]. split; [exact N|]. split; [exact L|]. split; [intros y [<-|Y]; [lra|apply A, Y]|]. intros [|j'] y J Y; [injection Y as <-; lra|apply (F j'); [lia|exact Y]].
Qed.
Lemma argmin_first l : l <> [] -> exists i v, argminR l = Ok i /\ nth_error l i = Some v /\ (forall y, In y l -> v <= y) /\ forall j y, (j < i)%nat -> nth_error l j = Some y -> v < y.
Proof.
  destruct l as [|x l]; [congruence|]. intros _. cbn [argminR]. destruct (argmin_first_from l 1 0 x) as [[K H]|(j & w & K & N & L & A & F)]; rewrite K.
  - exists O, x. split; [reflexivity|]. split; [reflexivity|]. split; [intros y [<-|Y]; [lra|apply H, Y]|intros; lia].
  - exists (S j), w. split; [reflexivity|]. split; [exact N|]. split; [intros y [<-|Y]; [lra|apply A, Y]|]. intros [|j'] y J Y; [injection Y as <-; exact L|apply (F j'); [lia|exact Y]].
Qed.

(** ** the ratio *)
Definition rat (k : nat) : R := 5/10 + INR k * (1/10).
Lemma nth_ratio k : (k < 95)%nat -> nth_error ratios k = Some (rat k).
Proof. intros H. unfold ratios. rewrite nth_error_map. rewrite (nth_error_nth' _ O) by (rewrite seq_length; exact H). rewrite seq_nth by exact H. reflexivity. Qed.
Lemma len_ratios : List.length ratios = 95%nat. Proof. unfold ratios. rewrite map_length, seq_length. reflexivity. Qed.
Lemma ratio_spec sig des : exists k, (k < 95)%nat /\ err_ratio sig des = Ok (rat k) /\
  (forall j, (j < 95)%nat -> Rabs (sigma_pull sig des (rat k) - 1) <= Rabs (sigma_pull sig des (rat j) - 1)) /\
  forall j, (j < k)%nat -> Rabs (sigma_pull sig des (rat k) - 1) < Rabs (sigma_pull sig des (rat j) - 1).
Proof.
  set (f := fun r => Rabs (sigma_pull sig des r - 1)). destruct (argmin_first (map f ratios)) as (i & v & A & N & M & F); [unfold ratios; discriminate|].
  assert (I : (i < 95)%nat). { rewrite <- len_ratios, <- (map_length f). apply nth_error_Some. congruence. }
  assert (V : v = f (rat i)). { rewrite nth_error_map, nth_ratio in N by exact I. cbn in N. congruence. }
  exists i. split; [exact I|]. split; [unfold err_ratio; fold f; rewrite A; cbn [bind]; rewrite nth_ratio by exact I; reflexivity|]. rewrite V in *. split.
  - intros j J. apply (M (f (rat j))). apply in_map. apply nth_error_In with j. apply nth_ratio, J.
  - intros j J. apply (F j (f (rat j)) J). rewrite nth_error_map, nth_ratio by lia. reflexivity.
Qed.
Lemma rat_lt j k : (j < k)%nat -> rat j < rat k.
Proof. intros H. apply lt_INR in H. unfold rat. lra. Qed.
Lemma rat_pos k : 0 < rat k.
Proof. unfold rat. pose proof (pos_INR k). lra. Qed.
(** equal errors: a change of scale *)
Lemma sigma_equal sig e des r : 0 < sig -> (forall d, In d des -> snd d = e) -> sigma_pull sig des r = madR (map fst des) * / sqrt ((r * e) ^ 2 + sig ^ 2).
Proof.
  intros S H. unfold sigma_pull. assert (P : 0 < sqrt ((r * e) ^ 2 + sig ^ 2)) by (apply sqrt_lt_R0; pose proof (pow2_ge_0 (r * e)); nra).
  rewrite <- mad_scale by (apply Rinv_0_lt_compat, P). f_equal. rewrite map_map. apply map_ext_in. intros d D. unfold pull_of. rewrite (H d D). reflexivity.
Qed.
Lemma median_nonneg l : (forall x, In x l -> 0 <= x) -> 0 <= medianR l.
Proof.
  intros H. assert (N : forall i, 0 <= nth i (sortR l) 0). { intros i. destruct (nth_in_or_default i (sortR l) 0) as [I|E]; [apply H; eapply Permutation_in; [apply sortR_perm|exact I]|rewrite E; lra]. }
  unfold medianR. destruct (Nat.even _); [pose proof (N (List.length (sortR l) / 2 - 1)%nat); pose proof (N (List.length (sortR l) / 2)%nat); lra|apply N].
Qed.
Lemma mad_nonneg l : 0 <= madR l.
Proof. unfold madR. assert (0 <= medianR (map (fun x => Rabs (x - medianR l)) l)); [|lra]. apply median_nonneg. intros x I. apply in_map_iff in I as (y & <- & _). apply Rabs_pos. Qed.
Section Equal.
  Variables (sig e : R) (des : list (R * R)).
  Hypothesis S : 0 < sig.
  Hypothesis E : 0 <= e.
  Hypothesis H : forall d, In d des -> snd d = e.
  Let M := madR (map fst des).
  Let q k := sqrt ((rat k * e) ^ 2 + sig ^ 2).
  Lemma q_pos k : 0 < q k. Proof. unfold q. apply sqrt_lt_R0. pose proof (pow2_ge_0 (rat k * e)). nra. Qed.
  Lemma q_le j k : (j <= k)%nat -> q j <= q k.
  Proof.
    intros L. unfold q. apply sqrt_le_1_alt. apply Rplus_le_compat_r. assert (rat j <= rat k) by (apply le_INR in L; unfold rat; lra). pose proof (rat_pos j). apply pow_incr. split; [nra|]. nra.
  Qed.
  Lemma q_lt j k : 0 < e -> (j < k)%nat -> q j < q k.
  Proof.
    intros P L. unfold q. apply sqrt_lt_1_alt. pose proof (rat_lt j k L). pose proof (rat_pos j). split; [nra|]. apply Rplus_lt_compat_r. assert (rat j * e < rat k * e) by nra. assert (0 < rat j * e) by nra. nra.
  Qed.
  Lemma sig_q k : sigma_pull sig des (rat k) = M / q k. Proof. apply (sigma_equal sig e); assumption. Qed.
  Lemma M_pos : 0 <= M. Proof. apply mad_nonneg. Qed.
  Lemma mono j k : (j <= k)%nat -> M / q k <= M / q j.
  Proof. intros L. unfold Rdiv. apply Rmult_le_compat_l; [apply M_pos|]. apply Rinv_le_contravar; [apply q_pos|apply q_le, L]. Qed.
  Lemma smallest : M <= q 0 \/ e = 0 -> err_ratio sig des = Ok (1/2).
  Proof.
    intros C. destruct (ratio_spec sig des) as (k & K & -> & _ & F). destruct k as [|k]; [unfold rat; cbn [INR]; f_equal; lra|]. exfalso. specialize (F O ltac:(lia)). rewrite !sig_q in F. destruct C as [C|C].
    - assert (A : M / q 0 <= 1). { apply (Rmult_le_reg_r (q 0)); [apply q_pos|]. unfold Rdiv. rewrite Rmult_assoc, Rinv_l by (pose proof (q_pos 0); lra). lra. }
      pose proof (mono 0 (Datatypes.S k) ltac:(lia)). rewrite !Rabs_left1 in F by lra. lra.
    - assert (X : q 0 = q (Datatypes.S k)) by (unfold q; rewrite C, !Rmult_0_r; reflexivity). rewrite X in F. lra.
  Qed.
  Lemma largest : 0 < e -> q 94 <= M -> err_ratio sig des = Ok (99/10).
  Proof.
    intros P C. destruct (ratio_spec sig des) as (k & K & -> & F & _). destruct (Nat.eq_dec k 94) as [->|N]; [f_equal; unfold rat; rewrite INR_IZR_INZ; cbn [Z.of_nat Pos.of_succ_nat Pos.succ]; lra|]. exfalso. specialize (F 94%nat ltac:(lia)). rewrite !sig_q in F.
    assert (A : 1 <= M / q 94). { apply (Rmult_le_reg_r (q 94)); [apply q_pos|]. unfold Rdiv. rewrite Rmult_assoc, Rinv_l by (pose proof (q_pos 94); lra). lra. }
    assert (B : M / q 94 < M / q k). { unfold Rdiv. apply Rmult_lt_compat_l; [pose proof (q_pos 94); lra|]. apply Rinv_lt_contravar; [apply Rmult_lt_0_compat; apply q_pos|apply q_lt; [exact P|lia]]. }
    rewrite !Rabs_pos_eq in F by lra. lra.
  Qed.
  Lemma found j : 0 < e -> (j < 95)%nat -> M = q j -> err_ratio sig des = Ok (rat j).
  Proof.
    intros P J C. destruct (ratio_spec sig des) as (k & K & -> & F & _). f_equal. specialize (F j J). rewrite !sig_q in F. rewrite C in F. pose proof (q_pos j) as Qj. pose proof (q_pos k) as Qk.
    replace (q j / q j - 1) with 0 in F by (field; lra). rewrite Rabs_R0 in F. pose proof (Rabs_pos (q j / q k - 1)). assert (A : q j / q k - 1 = 0) by (destruct (Req_dec (q j / q k - 1) 0) as [X|X]; [exact X|apply Rabs_pos_lt in X; lra]).
    assert (B : q j = q k). { apply (Rmult_eq_reg_r (/ q k)); [|apply Rinv_neq_0_compat; lra]. rewrite Rinv_r by lra. unfold Rdiv in A. lra. }
    destruct (Nat.lt_total j k) as [L|[->|L]]; [pose proof (q_lt _ _ P L); lra|reflexivity|pose proof (q_lt _ _ P L); lra].
  Qed.
End Equal.

(** ** names *)
Local Open Scope list_scope.
Lemma until_noslash s : ~ In "/"%char s -> until_slash s = s.
Proof. induction s as [|c s IH]; intros H; [reflexivity|]. cbn [until_slash]. destruct (Ascii.eqb_spec c "/"%char) as [->|D]; [exfalso; apply H; left; reflexivity|]. f_equal. apply IH. intros I. apply H. right. exact I. Qed.
Lemma until_app s t : ~ In "/"%char s -> until_slash (s ++ "/"%char :: t) = s.
Proof. induction s as [|c s IH]; intros H; [reflexivity|]. cbn [until_slash app]. destruct (Ascii.eqb_spec c "/"%char) as [->|D]; [exfalso; apply H; left; reflexivity|]. f_equal. apply IH. intros I. apply H. right. exact I. Qed.
Lemma basename_in d n : ~ In "/"%char n -> basename (d ++ s_ "/" ++ n) = n.
Proof.
  intros H. unfold basename. rewrite !rev_app_distr. change (rev (s_ "/")) with ["/"%char]. rewrite <- app_assoc. cbn [app]. rewrite until_app; [apply rev_involutive|]. intros I. apply H, in_rev. exact I.
Qed.
Lemma basename_id n : ~ In "/"%char n -> basename n = n.
Proof. intros H. unfold basename. rewrite until_noslash; [apply rev_involutive|]. intros I. apply H, in_rev, I. Qed.
Lemma rstrip_id' cs s c : char_in cs c = false -> rstrip cs (s ++ [c]) = s ++ [c].
Proof. intros H. rewrite rstrip_snoc, H. reflexivity. Qed.
