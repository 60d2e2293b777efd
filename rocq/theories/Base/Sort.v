(** numpy.argsort.  The order of equal keys is not specified, so models take the sorting function as a parameter
    and theorems assume [argsort_spec] of it; [argsort] below shows that the assumption can be met. *)
From Coq Require Import QArith Lqa Permutation Sorting.Sorted.
From Verif.Base Require Import Py PyLemmas.
Local Open Scope nat_scope.

(** A permutation of the positions, keys in non-decreasing order. *)
Definition argsort_spec (asort : list Q -> list nat) : Prop :=
  forall l, Permutation (asort l) (seq 0 (List.length l)) /\
    forall i j a b x y, i < j -> nth_error (asort l) i = Some a -> nth_error (asort l) j = Some b ->
      nth_error l a = Some x -> nth_error l b = Some y -> (x <= y)%Q.

(** argsort(l)[::-1] *)
Definition desc (asort : list Q -> list nat) (l : list Q) : list nat := rev (asort l).

Lemma asort_length asort l : argsort_spec asort -> List.length (asort l) = List.length l.
Proof. intros H. destruct (H l) as [P _]. apply Permutation_length in P. rewrite seq_length in P. exact P. Qed.
Lemma desc_perm asort l : argsort_spec asort -> Permutation (desc asort l) (seq 0 (List.length l)).
Proof. intros H. unfold desc. rewrite <- Permutation_rev. apply H. Qed.
Lemma desc_length asort l : argsort_spec asort -> List.length (desc asort l) = List.length l.
Proof. intros H. unfold desc. rewrite rev_length. apply asort_length, H. Qed.
Lemma desc_In asort l i : argsort_spec asort -> (In i (desc asort l) <-> i < List.length l).
Proof.
  intros H. pose proof (desc_perm asort l H) as P. split; intros Hi.
  - apply (Permutation_in i P) in Hi. apply in_seq in Hi. lia.
  - apply (Permutation_in i (Permutation_sym P)). apply in_seq. lia.
Qed.
Lemma desc_NoDup asort l : argsort_spec asort -> NoDup (desc asort l).
Proof. intros H. apply (Permutation_NoDup (Permutation_sym (desc_perm asort l H))). apply seq_NoDup. Qed.

Lemma nth_error_rev {A} (l : list A) i : i < List.length l -> nth_error (rev l) i = nth_error l (List.length l - S i).
Proof.
  intros H. destruct l as [|d l0]; [cbn in H; lia|]. set (l := d :: l0) in *.
  rewrite (nth_error_nth' (rev l) d) by (rewrite rev_length; exact H).
  rewrite (nth_error_nth' l d) by lia. f_equal. apply rev_nth, H.
Qed.

Lemma desc_sorted asort l i j a b x y : argsort_spec asort -> i < j ->
  nth_error (desc asort l) i = Some a -> nth_error (desc asort l) j = Some b ->
  nth_error l a = Some x -> nth_error l b = Some y -> (y <= x)%Q.
Proof.
  intros H Hij Ha Hb Hx Hy. unfold desc in *.
  assert (Hi : i < List.length (asort l)) by (rewrite <- rev_length; apply nth_error_Some; congruence).
  assert (Hj : j < List.length (asort l)) by (rewrite <- rev_length; apply nth_error_Some; congruence).
  rewrite nth_error_rev in Ha, Hb by assumption.
  destruct (H l) as [_ HS]. apply (HS (List.length (asort l) - S j) (List.length (asort l) - S i) b a y x); auto. lia.
Qed.

(** an implementation: insertion sort of the positions by key *)
Fixpoint ins (key : nat -> Q) (i : nat) (l : list nat) : list nat :=
  match l with [] => [i] | j :: t => if Qle_bool (key i) (key j) then i :: l else j :: ins key i t end.
Definition argsort (l : list Q) : list nat :=
  fold_right (ins (fun i => nth i l 0%Q)) [] (seq 0 (List.length l)).

Lemma ins_perm key i l : Permutation (ins key i l) (i :: l).
Proof.
  induction l as [|j l IH]; cbn; [reflexivity|]. destruct (Qle_bool _ _); [reflexivity|].
  rewrite IH. apply perm_swap.
Qed.
Lemma ins_sorted key i l : StronglySorted (fun a b => key a <= key b)%Q l -> StronglySorted (fun a b => key a <= key b)%Q (ins key i l).
Proof.
  induction 1 as [|j l Hs IH Hf]; cbn; [repeat constructor|].
  destruct (Qle_bool (key i) (key j)) eqn:E.
  - apply Qle_bool_iff in E. constructor; [constructor; assumption|]. constructor; [exact E|].
    rewrite Forall_forall in *. intros k Hk. specialize (Hf k Hk). cbn in *. lra.
  - apply Qle_bool_false in E. constructor; [exact IH|]. rewrite Forall_forall in *. intros k Hk.
    apply (Permutation_in k (ins_perm key i l)) in Hk. destruct Hk as [<-|Hk]; [lra|apply Hf, Hk].
Qed.
Lemma argsort_ok : argsort_spec argsort.
Proof.
  intros l. unfold argsort. set (key := fun i => nth i l 0%Q).
  assert (P : forall s, Permutation (fold_right (ins key) [] s) s).
  { induction s as [|i s IH]; [reflexivity|]. cbn [fold_right]. rewrite ins_perm, IH. reflexivity. }
  assert (HS : forall s, StronglySorted (fun a b => key a <= key b)%Q (fold_right (ins key) [] s)).
  { induction s as [|i s IH]; [constructor|]. cbn [fold_right]. apply ins_sorted, IH. }
  split; [apply P|]. intros i j a b x y Hij Ha Hb Hx Hy.
  pose proof (SS_nth _ _ i j a b (HS (seq 0 (List.length l))) Hij Ha Hb) as H. unfold key in H.
  rewrite (nth_error_nth l a 0%Q Hx), (nth_error_nth l b 0%Q Hy) in H. exact H.
Qed.
