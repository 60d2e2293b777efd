(** Lemmas for Props/PdfSample.v. *)
From Coq Require Import QArith Qround Lqa Lia.
From Verif.Base Require Import Py PyLemmas.
From Verif.Model Require Import PdfSample.
From Coq Require Import Lqa Lia List. Import ListNotations.
Local Open Scope Q_scope.

Definition NQ (pdf : list Q) : Q := inject_Z (Z.of_nat (List.length pdf)).
Definition cdf (pdf : list Q) (i : nat) : Q := Qsum (firstn (S i) pdf) / Qsum pdf.
Lemma Qsum_nonneg l : Forall (fun p => 0 <= p) l -> 0 <= Qsum l.
Proof. induction 1; cbn; lra. Qed.
Lemma Qsum_app a b : Qsum (a ++ b) == Qsum a + Qsum b.
Proof. induction a as [|x t IH]; cbn; [lra|]. rewrite IH. lra. Qed.
Lemma sum_first_le pdf i j : Forall (fun p => 0 <= p) pdf -> (i <= j)%nat -> Qsum (firstn i pdf) <= Qsum (firstn j pdf).
Proof.
  intros H L. rewrite <- (firstn_skipn i (firstn j pdf)). rewrite Qsum_app, firstn_firstn. replace (Nat.min i j) with i by lia.
  assert (0 <= Qsum (skipn i (firstn j pdf))); [|lra]. apply Qsum_nonneg. rewrite Forall_forall in *. intros x Hx. apply H.
  rewrite <- (firstn_skipn j pdf). apply in_or_app. left. rewrite <- (firstn_skipn i (firstn j pdf)). apply in_or_app. right. exact Hx.
Qed.
Lemma sum_div l s : Qsum (map (fun p => p / s) l) == Qsum l / s.
Proof. unfold Qdiv. induction l as [|x t IH]; cbn; [lra|]. rewrite IH. ring. Qed.
Lemma cdfi_len pdf : List.length (cdfi pdf) = List.length pdf.
Proof. unfold cdfi. rewrite map_length. unfold cumsum. rewrite cumsum_from_length. apply map_length. Qed.
Lemma cdfi_nth pdf i : (i < List.length pdf)%nat -> nth_error (cdfi pdf) i = Some (Qfloor (cdf pdf i * NQ pdf)).
Proof.
  intros Hi. unfold cdfi, cumsum. rewrite nth_error_map. destruct (cumsum_from_nth 0 (map (fun p => p / Qsum pdf) pdf) i) as (y & E & V); [rewrite map_length; exact Hi|].
  rewrite E. cbn [option_map]. f_equal. apply Qfloor_comp. rewrite V, firstn_map, sum_div. unfold cdf, NQ. rewrite Qplus_0_l. reflexivity.
Qed.
Lemma cdf_mono pdf i j : Forall (fun p => 0 <= p) pdf -> 0 < Qsum pdf -> (i <= j)%nat -> cdf pdf i <= cdf pdf j.
Proof. intros H P L. unfold cdf, Qdiv. apply Qmult_le_compat_r; [apply sum_first_le; [exact H|lia]|]. apply Qlt_le_weak, Qinv_lt_0_compat, P. Qed.
Lemma NQ_pos pdf : pdf <> [] -> 0 < NQ pdf.
Proof. intros H. unfold NQ. destruct pdf; [congruence|]. cbn [List.length]. rewrite Nat2Z.inj_succ. unfold Qlt. cbn. lia. Qed.
Lemma first_ge_mono r : forall l, (forall i j a b, (i <= j)%nat -> nth_error l i = Some a -> nth_error l j = Some b -> (a <= b)%Z) ->
  forall i a, nth_error l i = Some a -> (r <= a)%Z -> exists k, first_ge r l = Some k /\ (k <= i)%nat.
Proof.
  induction l as [|c t IH]; intros M i a E R; [destruct i; discriminate|]. cbn. destruct (Z.leb r c) eqn:Q; [exists 0%nat; split; [reflexivity|lia]|].
  apply Z.leb_gt in Q. destruct i as [|i]; cbn in E; [injection E as ->; lia|].
  destruct (IH (fun i j a b L A B => M (S i) (S j) a b ltac:(lia) A B) i a E R) as (k & K & L). rewrite K. exists (S k). split; [reflexivity|lia].
Qed.
Lemma first_ge_at r : forall l k, first_ge r l = Some k -> exists c, nth_error l k = Some c /\ (r <= c)%Z /\ forall i a, (i < k)%nat -> nth_error l i = Some a -> (a < r)%Z.
Proof.
  induction l as [|c t IH]; intros k H; cbn in H; [discriminate|]. destruct (Z.leb r c) eqn:Q.
  - injection H as <-. apply Z.leb_le in Q. exists c. repeat split; auto. intros; lia.
  - destruct (first_ge r t) as [k'|]; [|discriminate]. injection H as <-. destruct (IH k' eq_refl) as (d & A & B & C). exists d. repeat split; auto.
    intros [|i] a L E; [cbn in E; injection E as ->; apply Z.leb_gt in Q; lia|]. apply (C i a); [lia|exact E].
Qed.
Lemma index_spec pdf u : Forall (fun p => 0 <= p) pdf -> 0 < Qsum pdf -> 0 <= u -> u < 1 ->
  exists k, sample_index pdf u = Some k /\ (k < List.length pdf)%nat /\
  forall i, (i < List.length pdf)%nat -> ((k <= i)%nat <-> (Qfloor (u * NQ pdf) <= Qfloor (cdf pdf i * NQ pdf))%Z).
Proof.
  intros H P U0 U1. assert (NE : pdf <> []) by (intros ->; cbn in P; lra). pose proof (NQ_pos pdf NE) as NP. set (r := Qfloor (u * NQ pdf)).
  assert (M : forall i j a b, (i <= j)%nat -> nth_error (cdfi pdf) i = Some a -> nth_error (cdfi pdf) j = Some b -> (a <= b)%Z).
  { intros i j a b L A B. assert (j < List.length pdf)%nat by (rewrite <- cdfi_len; apply nth_error_Some; rewrite B; discriminate).
    rewrite cdfi_nth in A by lia. rewrite cdfi_nth in B by lia. assert (Ea : a = Qfloor (cdf pdf i * NQ pdf)) by congruence. assert (Eb : b = Qfloor (cdf pdf j * NQ pdf)) by congruence. rewrite Ea, Eb. apply Qfloor_resp_le, Qmult_le_compat_r; [apply cdf_mono; assumption|apply Qlt_le_weak, NP]. }
  set (n := List.length pdf). assert (Hn : (0 < n)%nat) by (unfold n; destruct pdf; [congruence|cbn; lia]).
  assert (L : (r <= Qfloor (cdf pdf (n - 1) * NQ pdf))%Z).
  { apply Qfloor_resp_le, Qmult_le_compat_r; [|apply Qlt_le_weak, NP]. unfold cdf. replace (S (n - 1)) with n by lia. unfold n. rewrite firstn_all. assert (Q : Qsum pdf / Qsum pdf == 1) by (field; lra). lra. }
  destruct (first_ge_mono r (cdfi pdf) M (n - 1)%nat _ (cdfi_nth pdf (n - 1) ltac:(lia)) L) as (k & K & Lk).
  exists k. split; [exact K|]. split; [lia|]. intros i Hi. destruct (first_ge_at r _ _ K) as (c & C1 & C2 & C3). rewrite cdfi_nth in C1 by lia. assert (Ec : c = Qfloor (cdf pdf k * NQ pdf)) by congruence. rewrite Ec in C2. clear C1. split; intros Q.
  - apply Z.le_trans with (1 := C2). apply (M k i); [exact Q|apply cdfi_nth; lia|apply cdfi_nth; exact Hi].
  - destruct (Nat.le_gt_cases k i) as [|G]; [assumption|exfalso]. specialize (C3 i _ G (cdfi_nth pdf i Hi)). fold r in Q. lia.
Qed.
