(** Lemmas for Props/Nodes.v. *)
From Coq Require Import QArith Qround Qabs Lqa Lia Sorted.
From Verif.Base Require Import Py PyLemmas.
From Verif.Model Require Import Util Maskgals Nodes.
From Coq Require Import Lqa Lia List. Import ListNotations.
Local Open Scope Q_scope.

Lemma hist_zero nodes xs : existsb (Nat.eqb 0) (np_histogram nodes xs) = false <->
  forall i a b, nth_error nodes i = Some a -> nth_error nodes (S i) = Some b ->
    exists x, In x xs /\ a <= x /\ (x < b \/ S (S i) = List.length nodes /\ x <= b).
Proof.
  induction nodes as [|a nodes IH]; [cbn; split; [intros _ i a b H; destruct i; discriminate|reflexivity]|].
  destruct nodes as [|b t]; [cbn; split; [intros _ i a' b H K; destruct i; discriminate|reflexivity]|].
  change (np_histogram (a :: b :: t) xs) with
    (List.length (filter (fun x => Qle_bool a x && (if match t with [] => true | _ => false end then Qle_bool x b else Qlt_bool x b)) xs) :: np_histogram (b :: t) xs).
  cbn [existsb]. rewrite orb_false_iff, IH. set (p := fun x => Qle_bool a x && _).
  assert (HP : forall x, p x = true <-> a <= x /\ (x < b \/ 2%nat = List.length (a :: b :: t) /\ x <= b)).
  { intros x. unfold p. rewrite andb_true_iff, Qle_bool_iff. destruct t as [|c t]; cbn [List.length]; [rewrite Qle_bool_iff|rewrite Qlt_bool_iff].
    - split; [intros [H K]; split; auto|intros [H [K|[_ K]]]; split; auto; lra].
    - split; [intros [H K]; split; auto|intros [H [K|[L K]]]; [auto|lia]]. }
  assert (HF : Nat.eqb 0 (List.length (filter p xs)) = false <-> exists x, In x xs /\ p x = true).
  { destruct (filter p xs) as [|x l] eqn:E; cbn; split; try discriminate; try reflexivity.
    - intros (x & Hx & Px). assert (In x (filter p xs)) by (apply filter_In; auto). rewrite E in H. destruct H.
    - intros _. exists x. apply filter_In. rewrite E. left. reflexivity. }
  rewrite HF. split.
  - intros [(x & Hx & Px) H] i a' b' Ha Hb. destruct i as [|i].
    + cbn in Ha, Hb. injection Ha as <-. injection Hb as <-. exists x. split; [exact Hx|]. apply HP, Px.
    + destruct (H i a' b' Ha Hb) as (y & Hy & L & K). exists y. split; [exact Hy|]. split; [exact L|]. cbn [List.length] in *. destruct K as [K|[K1 K2]]; [left; exact K|right; split; [lia|exact K2]].
  - intros H. split.
    + destruct (H 0%nat a b eq_refl eq_refl) as (x & Hx & K). exists x. split; [exact Hx|]. apply HP, K.
    + intros i a' b' Ha Hb. destruct (H (S i) a' b' Ha Hb) as (y & Hy & L & K). exists y. split; [exact Hy|]. split; [exact L|]. cbn [List.length] in *. destruct K as [K|[K1 K2]]; [left; exact K|right; split; [lia|exact K2]].
Qed.
Lemma hist_nonempty nodes xs : (2 <= List.length nodes)%nat -> np_histogram nodes xs <> [].
Proof. destruct nodes as [|a [|b t]]; cbn; intros; try lia. discriminate. Qed.

Lemma startvals_len m nodes gals : forall is prev, List.length (startvals_from m nodes gals prev is) = List.length is.
Proof. induction is as [|i t IH]; intros prev; cbn; [reflexivity|]. rewrite IH. reflexivity. Qed.
Lemma startvals_nth m nodes gals : forall k n prev j, (j < n)%nat ->
  nth_error (startvals_from m nodes gals prev (seq k n)) j =
  Some (node_val m nodes gals (match j with O => prev | S j' => nth j' (startvals_from m nodes gals prev (seq k n)) (0, 0) end) (k + j)).
Proof.
  intros k n. revert k. induction n as [|n IH]; intros k prev j Hj; [lia|]. cbn [seq startvals_from]. cbv zeta. destruct j as [|j]; cbn [nth_error nth].
  - rewrite Nat.add_0_r. reflexivity.
  - rewrite IH by lia. rewrite <- plus_n_Sm. destruct j; reflexivity.
Qed.
Lemma sorted_nth nodes i j : StronglySorted Qlt nodes -> (i < j)%nat -> (j < List.length nodes)%nat -> nth i nodes 0 < nth j nodes 0.
Proof.
  intros Hs Hij Hj. assert (Hi : (i < List.length nodes)%nat) by lia.
  destruct (nth_error nodes i) as [a|] eqn:Ea; [|apply nth_error_None in Ea; lia]. destruct (nth_error nodes j) as [b|] eqn:Eb; [|apply nth_error_None in Eb; lia].
  rewrite (nth_error_nth _ _ _ Ea), (nth_error_nth _ _ _ Eb). exact (SS_nth Qlt nodes i j a b Hs Hij Ea Eb).
Qed.
Lemma half_between a b : a < b -> a < half a b /\ half a b < b.
Proof. intros H. unfold half. split; [apply Qlt_shift_div_l; lra|apply Qlt_shift_div_r; lra]. Qed.
Lemma node_hi_lo nodes i j : StronglySorted Qlt nodes -> (i < j)%nat -> (j < List.length nodes)%nat -> node_hi nodes i <= node_lo nodes j.
Proof.
  intros Hs Hij Hj. unfold node_hi. rewrite (proj2 (Nat.eqb_neq _ _)) by lia. destruct j as [|j]; [lia|]. cbn [node_lo].
  destruct (Nat.eq_dec i j) as [->|N]; [lra|]. pose proof (half_between _ _ (sorted_nth nodes i (S i) Hs ltac:(lia) ltac:(lia))). pose proof (half_between _ _ (sorted_nth nodes j (S j) Hs ltac:(lia) ltac:(lia))).
  assert (nth (S i) nodes 0 <= nth j nodes 0); [|lra]. destruct (Nat.eq_dec (S i) j) as [->|N']; [lra|]. apply Qlt_le_weak, sorted_nth; [exact Hs|lia|lia].
Qed.
Lemma largest (P : nat -> bool) n : P 0%nat = true -> exists i, (i <= n)%nat /\ P i = true /\ (i = n \/ P (S i) = false).
Proof.
  intros H. induction n as [|n IH]; [exists 0%nat; auto|]. destruct IH as (i & Hi & Pi & K). destruct K as [->|K].
  - destruct (P (S n)) eqn:E; [exists (S n); auto|exists n; auto].
  - exists i. auto.
Qed.
