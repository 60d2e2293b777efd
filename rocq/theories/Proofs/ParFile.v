From Coq Require Import QArith Qabs Ascii String.
From Verif.Base Require Import Py PyLemmas.
From Verif.Model Require Import Names Maskgals ParFile.
From Coq Require Import Lqa Lia List. Import ListNotations.
Local Open Scope Q_scope.

Definition nocomma (s : str) : Prop := ~ In comma s.
Lemma split_nocomma s : nocomma s -> splitc s = [s].
Proof.
  induction s as [|x t IH]; intros H; [reflexivity|]. cbn [splitc]. destruct (Ascii.eqb_spec x comma) as [->|N]; [destruct H; left; reflexivity|].
  rewrite IH by (intros I; apply H; right; exact I). reflexivity.
Qed.
Lemma split_app a s : nocomma a -> splitc (a ++ comma :: s)%list = a :: splitc s.
Proof.
  induction a as [|x t IH]; intros H; cbn [app splitc].
  - rewrite Ascii.eqb_refl. reflexivity.
  - destruct (Ascii.eqb_spec x comma) as [->|N]; [destruct H; left; reflexivity|]. rewrite IH by (intros I; apply H; right; exact I). reflexivity.
Qed.
Lemma split_join l : l <> [] -> (forall a, In a l -> nocomma a) -> splitc (join l) = l.
Proof.
  induction l as [|a l IH]; intros N H; [congruence|]. cbn [join]. destruct l as [|b l].
  - apply split_nocomma, H. left. reflexivity.
  - rewrite split_app by (apply H; left; reflexivity). rewrite IH; [reflexivity|discriminate|intros; apply H; right; assumption].
Qed.
Lemma join_comma a b l : existsb (Ascii.eqb comma) (join (a :: b :: l)) = true.
Proof. cbn [join]. apply existsb_exists. exists comma. split; [apply in_or_app; right; left; reflexivity|apply Ascii.eqb_refl]. Qed.
Lemma rstrip_id cs s c : char_in cs c = false -> rstrip cs (s ++ [c])%list = (s ++ [c])%list.
Proof. intros H. unfold rstrip. rewrite rev_app_distr. cbn [rev app drop_while]. rewrite H. cbn [rev]. rewrite rev_involutive. reflexivity. Qed.
Lemma join_last l s c : exists t, join (l ++ [(s ++ [c])%list])%list = (t ++ [c])%list.
Proof.
  induction l as [|a l (t & IH)]; [exists s; reflexivity|]. cbn [app join]. destruct (l ++ [(s ++ [c])%list])%list eqn:E; [destruct l; discriminate|].
  rewrite IH. exists (a ++ comma :: t)%list. rewrite <- app_assoc. reflexivity.
Qed.
(** the b values *)
Lemma getB_bvals b : forall j i, (i < List.length b)%nat -> get (bvals j b) (KB (j + i + 1)) = Some (VQ (nth i b 0)).
Proof.
  induction b as [|x b IH]; intros j i H; [cbn in H; lia|]. cbn [bvals get key_eqb]. destruct i as [|i].
  - replace (j + 0 + 1)%nat with (j + 1)%nat by lia. rewrite Nat.eqb_refl. reflexivity.
  - destruct (Nat.eqb_spec (j + S i + 1) (j + 1)) as [E|_]; [lia|]. cbn [nth]. rewrite <- (IH (j + 1)%nat i) by (cbn in H; lia). f_equal. f_equal. lia.
Qed.
Lemma get_app h h' k : get h k = None -> get (h ++ h')%list k = get h' k.
Proof. induction h as [|[k' v] h IH]; cbn [get app]; [reflexivity|]. destruct (key_eqb k k'); [discriminate|]. exact IH. Qed.
Lemma get_app_l h h' k v : get h k = Some v -> get (h ++ h')%list k = Some v.
Proof. induction h as [|[k' w] h IH]; cbn [get app]; [discriminate|]. destruct (key_eqb k k'); [auto|]. exact IH. Qed.
Lemma read_b_all h b : (forall i, (i < List.length b)%nat -> get h (KB (i + 1)) = Some (VQ (nth i b 0))) -> read_b h (List.length b) = b.
Proof.
  intros H. unfold read_b.
  assert (G : forall l s, (forall i, (i < List.length l)%nat -> get h (KB (s + i + 1)) = Some (VQ (nth i l 0))) ->
     fold_right (fun i acc => match getQ h (KB (i + 1)), acc with Some x, Some l => Some (x :: l) | _, _ => None end) (Some []) (seq s (List.length l)) = Some l).
  { induction l as [|x l IH]; intros s Hs; [reflexivity|]. cbn [List.length seq fold_right]. rewrite IH.
    - unfold getQ. pose proof (Hs 0%nat ltac:(cbn; lia)) as H0. rewrite Nat.add_0_r in H0. rewrite H0. reflexivity.
    - intros i Hi. specialize (Hs (S i) ltac:(cbn; lia)). cbn [nth] in Hs. rewrite <- Hs. f_equal. f_equal. lia. }
  rewrite (G b 0%nat); [reflexivity|]. intros i Hi. apply H, Hi.
Qed.
Lemma read_b_none h n : (forall i, get h (KB i) = None) -> read_b h n = repeat 0 n.
Proof.
  intros H. unfold read_b. destruct n as [|n]; [reflexivity|]. cbn [seq fold_right]. unfold getQ at 1. rewrite H. reflexivity.
Qed.
(** argmin *)
Lemma argminQ_from_spec l : forall i best v r, argminQ_from l i best v = r -> (best < i)%nat ->
  (r = best /\ (forall y, In y l -> v <= y)) \/
  (exists j x, r = (i + j)%nat /\ nth_error l j = Some x /\ x < v /\ (forall y, In y l -> x <= y) /\ forall k y, (k < j)%nat -> nth_error l k = Some y -> x < y).
Proof.
  induction l as [|a l IH]; intros i best v r E Hb; cbn [argminQ_from] in E; [left; split; [congruence|intros y []]|].
  destruct (Qlt_bool a v) eqn:C.
  - apply Qlt_bool_iff in C. destruct (IH _ _ _ _ E ltac:(lia)) as [[-> H]|(j & x & -> & Ej & Hx & Hall & Hf)]; right.
    + exists 0%nat, a. split; [lia|]. split; [reflexivity|]. split; [exact C|]. split; [intros y [<-|Hy]; [lra|apply H, Hy]|intros k y Hk; lia].
    + exists (S j), x. split; [lia|]. split; [exact Ej|]. split; [lra|]. split; [intros y [<-|Hy]; [lra|apply Hall, Hy]|].
      intros k y Hk Ek. destruct k as [|k]; [cbn in Ek; injection Ek as <-; exact Hx|]. apply (Hf k y); [lia|exact Ek].
  - apply Qlt_bool_false in C. destruct (IH _ _ _ _ E ltac:(lia)) as [[-> H]|(j & x & -> & Ej & Hx & Hall & Hf)].
    + left. split; [reflexivity|]. intros y [<-|Hy]; [lra|apply H, Hy].
    + right. exists (S j), x. split; [lia|]. split; [exact Ej|]. split; [exact Hx|]. split; [intros y [<-|Hy]; [lra|apply Hall, Hy]|].
      intros k y Hk Ek. destruct k as [|k]; [cbn in Ek; injection Ek as <-; lra|]. apply (Hf k y); [lia|exact Ek].
Qed.
Lemma argminQ_spec l : l <> [] -> exists x, nth_error l (argminQ l) = Some x /\ (forall y, In y l -> x <= y) /\ forall k y, (k < argminQ l)%nat -> nth_error l k = Some y -> x < y.
Proof.
  destruct l as [|a l]; [congruence|]. intros _. unfold argminQ. destruct (argminQ_from_spec l 1 0 a _ eq_refl ltac:(lia)) as [[-> H]|(j & x & -> & Ej & Hx & Hall & Hf)].
  - exists a. split; [reflexivity|]. split; [intros y [<-|Hy]; [lra|apply H, Hy]|intros k y Hk; lia].
  - exists x. split; [exact Ej|]. split; [intros y [<-|Hy]; [lra|apply Hall, Hy]|]. intros k y Hk Ek. destruct k as [|k]; [cbn in Ek; injection Ek as <-; exact Hx|]. apply (Hf k y); [lia|exact Ek].
Qed.
