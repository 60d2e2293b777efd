(** Proofs about the fit of the corrections of cluster redshifts. *)
From Coq Require Import Reals Lra.
From Verif.Base Require Import Py PyLemmas.
From Verif.Model Require Import ZLamFit.
From Verif.Spec Require Import ZLamFit.
From Coq Require Import Lia List. Import ListNotations.
Local Open Scope R_scope.

Lemma slice_mid (a b c : list R) i n : i = List.length a -> n = List.length b -> slice i n (a ++ b ++ c) = b.
Proof. intros -> ->. unfold slice. rewrite skipn_app, skipn_all, Nat.sub_diag. cbn [app skipn]. rewrite firstn_app, firstn_all, Nat.sub_diag. cbn [firstn]. apply app_nil_r. Qed.
Lemma slice_last (a b : list R) i n : i = List.length a -> n = List.length b -> slice i n (a ++ b) = b.
Proof. intros Hi Hn. rewrite <- (app_nil_r b) at 1. apply slice_mid; assumption. Qed.
Lemma slice_length i n l : (i + n <= List.length l)%nat -> List.length (slice i n l) = n.
Proof. intros H. unfold slice. rewrite firstn_length, skipn_length. lia. Qed.
Lemma slice_all (l : list R) i n m : (List.length l = i + n + m)%nat -> slice 0 i l ++ slice i n l ++ slice (i + n) m l = l.
Proof.
  intros H. unfold slice. cbn [skipn]. rewrite <- (firstn_skipn i l) at 4. f_equal. rewrite <- (firstn_skipn n (skipn i l)) at 2. f_equal.
  assert (E : skipn (i + n) l = skipn n (skipn i l)). { clear H. revert l. induction i as [|i IH]; intros l; [reflexivity|]. destruct l as [|x l]; [cbn [plus skipn]; rewrite skipn_nil; reflexivity|]. cbn [plus skipn]. apply IH. }
  rewrite E. apply firstn_all2. rewrite !skipn_length. lia.
Qed.
Lemma slice_two (l : list R) i n : (List.length l = i + n)%nat -> slice 0 i l ++ slice i n l = l.
Proof. intros H. unfold slice. cbn [skipn]. rewrite <- (firstn_skipn i l) at 3. f_equal. apply firstn_all2. rewrite skipn_length. lia. Qed.
Lemma val_gauss under v d : 0 < v -> d ^ 2 / (2 * v) <= under -> val under v d = log_gauss v d.
Proof.
  intros Hv Hu. unfold val. destruct (Rle_dec v 0); [lra|]. destruct (Rlt_dec _ _); [lra|]. unfold log_gauss.
  pose proof PI_RGT_0 as P0. assert (P : 0 < 2 * PI * v) by (apply Rmult_lt_0_compat; lra). pose proof (sqrt_lt_R0 _ P) as S0.
  rewrite ln_mult; [|apply Rdiv_lt_0_compat; lra|apply exp_pos]. rewrite ln_exp. unfold Rdiv at 1. rewrite Rmult_1_l. rewrite ln_Rinv by exact S0.
  assert (ln (2 * PI * v) = 2 * ln (sqrt (2 * PI * v))). { rewrite <- (sqrt_sqrt (2 * PI * v)) at 1 by lra. rewrite ln_mult by exact S0. ring. }
  lra.
Qed.
