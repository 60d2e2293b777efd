(** Lemmas on the fit of one correlation. *)
From Coq Require Import Reals Lra.
From Verif.Base Require Import Py PyLemmas.
From Verif.Model Require Import BkgGen OffFit.
From Verif.Spec Require Import OffFit.
From Verif.Proofs Require Import BkgGen.
From Coq Require Import Lia List Bool. Import ListNotations.
Local Open Scope R_scope.

Lemma total_ext n f g : (forall i, (i < n)%nat -> f i = g i) -> total n f = total n g.
Proof. intros H. unfold total. f_equal. apply map_ext_in. intros i I. apply in_seq in I. apply H. lia. Qed.
Lemma variance_ext n a b v : (forall i j, (i < n)%nat -> (j < n)%nat -> a i j = b i j) -> variance n a v = variance n b v.
Proof. intros H. apply total_ext. intros i I. apply total_ext. intros j J. rewrite H by assumption. reflexivity. Qed.
Lemma at_least_ext n m a b : (forall i j, (i < n)%nat -> (j < n)%nat -> a i j = b i j) -> at_least n m a <-> at_least n m b.
Proof. intros H. unfold at_least. split; intros A v; specialize (A v); [rewrite <- (variance_ext n a b v H)|rewrite (variance_ext n a b v H)]; exact A. Qed.
Lemma symmetric_ext n a b : (forall i j, (i < n)%nat -> (j < n)%nat -> a i j = b i j) -> symmetric n a -> symmetric n b.
Proof. intros H S i j I J. rewrite <- !H by assumption. apply S; assumption. Qed.
Lemma least_ext n least a b : is_least n least -> symmetric n a -> (forall i j, (i < n)%nat -> (j < n)%nat -> a i j = b i j) -> least a = least b.
Proof.
  intros L S H. pose proof (symmetric_ext n a b H S) as S'. apply Rle_antisym.
  - apply (L b _ S'). apply (at_least_ext n _ a b H). apply (L a _ S). apply Rle_refl.
  - apply (L a _ S). apply (at_least_ext n _ a b H). apply (L b _ S'). apply Rle_refl.
Qed.
Lemma write_spec j k p m a b i : j <> k -> write_pair j k p m a b i = with_correlation j k (p i) (fun x y => m x y i) a b.
Proof.
  intros D. unfold write_pair, write_second, write_first, with_correlation. rewrite !Nat.eqb_refl. cbn [andb].
  destruct (Nat.eqb_spec a j), (Nat.eqb_spec b k), (Nat.eqb_spec a k), (Nat.eqb_spec b j); cbn [andb orb]; subst; try congruence; try lia; reflexivity.
Qed.
Definition rest (j k : nat) (m m' : cube) : Prop := forall a b i, ~ (a = j /\ b = k) -> ~ (a = k /\ b = j) -> m a b i = m' a b i.
Lemma write_rest j k p m : j <> k -> rest j k (write_pair j k p m) m.
Proof.
  intros D a b i N1 N2. rewrite write_spec by exact D. unfold with_correlation.
  destruct (Nat.eqb_spec a j), (Nat.eqb_spec b k), (Nat.eqb_spec a k), (Nat.eqb_spec b j); cbn [andb orb]; try reflexivity; exfalso; (tauto || congruence).
Qed.
Lemma rest_write j k p m m' : j <> k -> rest j k m m' -> forall a b i, write_pair j k p m a b i = write_pair j k p m' a b i.
Proof.
  intros D H a b i. rewrite !write_spec by exact D. unfold with_correlation. rewrite (H j j i), (H k k i) by (intros [? ?]; congruence).
  destruct (Nat.eqb_spec a j), (Nat.eqb_spec b k), (Nat.eqb_spec a k), (Nat.eqb_spec b j); cbn [andb orb]; try reflexivity; apply H; intros [? ?]; congruence.
Qed.
Lemma calls_rest least like f ps : o_j f <> o_k f -> forall m, exists m', calls least like f (Some m) ps = Some m' /\ rest (o_j f) (o_k f) m' m.
Proof.
  intros D. induction ps as [|p t IH]; intros m; [exists m; split; [reflexivity|intros a b i _ _; reflexivity]|].
  unfold calls. cbn [fold_left]. change (snd (call least like f (Some m) p)) with (Some (write_pair (o_j f) (o_k f) p m)).
  destruct (IH (write_pair (o_j f) (o_k f) p m)) as (m' & E & R). exists m'. split; [exact E|]. intros a b i N1 N2. rewrite (R a b i N1 N2). apply write_rest; assumption.
Qed.
Lemma corr_symmetric n j k r a : symmetric n a -> symmetric n (with_correlation j k r a).
Proof.
  intros S x y X Y. unfold with_correlation. rewrite (orb_comm (Nat.eqb y j && Nat.eqb x k)), (andb_comm (Nat.eqb y k)), (andb_comm (Nat.eqb y j)).
  destruct (_ || _)%bool; [reflexivity|apply S; assumption].
Qed.
Lemma wall_iff n least f m : is_least n least -> (forall i, symmetric n (fun a b => m a b i)) ->
  wall least f m = true <-> exists i, (i < o_nodes f)%nat /\ ~ at_least n (o_mineig f) (fun a b => m a b i).
Proof.
  intros L S. unfold wall. rewrite existsb_exists. split.
  - intros (i & I & H). apply in_seq in I. apply Rltb_iff in H. exists i. split; [lia|]. rewrite <- (L _ _ (S i)). lra.
  - intros (i & I & H). exists i. split; [apply in_seq; lia|]. apply Rltb_iff. rewrite <- (L _ _ (S i)) in H. lra.
Qed.
Lemma wall_ext n least f m m' : is_least n least -> (forall i, symmetric n (fun a b => m a b i)) -> (forall a b i, m a b i = m' a b i) -> wall least f m = wall least f m'.
Proof.
  intros L S H. unfold wall. induction (seq 0 (o_nodes f)) as [|i t IH]; [reflexivity|]. cbn [existsb]. rewrite IH.
  rewrite (least_ext n least (fun a b => m a b i) (fun a b => m' a b i) L (S i)); [reflexivity|]. intros a b _ _. apply H.
Qed.
