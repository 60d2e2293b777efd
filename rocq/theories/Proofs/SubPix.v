(** Proofs about maps read for a region. *)
From Verif.Base Require Import Py PyLemmas.
From Verif.Model Require Import SubPix.
From Verif.Spec Require Import SubPix.
From Coq Require Import PeanoNat Lia List. Import ListNotations.

Lemma pow4 n : 4 ^ n <> 0.
Proof. apply Nat.pow_nonzero. discriminate. Qed.
Lemma lies_parent D k q p : lies_in D k q p <-> parent D k p = q.
Proof.
  unfold lies_in, parent. pose proof (pow4 (D - k)). generalize dependent (4 ^ (D - k)). intros n Hn. split.
  - intros [H1 H2]. symmetry. apply (Nat.div_unique p n q (p - q * n)); nia.
  - intros <-. pose proof (Nat.div_mod p n Hn). pose proof (Nat.mod_upper_bound p n Hn). nia.
Qed.
Lemma parent_parent D k k' p : k' <= k <= D -> parent k k' (parent D k p) = parent D k' p.
Proof.
  intros H. unfold parent. rewrite Nat.div_div by apply pow4. rewrite <- Nat.pow_add_r. f_equal. f_equal. lia.
Qed.
Lemma children_iff k k' q p : k <= k' -> In p (children k k' q) <-> parent k' k p = q.
Proof.
  intros H. rewrite <- lies_parent. unfold children, lies_in. pose proof (pow4 (k' - k)). generalize dependent (4 ^ (k' - k)). intros n Hn. rewrite in_map_iff. split.
  - intros (i & <- & Hi). apply in_seq in Hi. nia.
  - intros [H1 H2]. exists (p - q * n). split; [nia|]. apply in_seq. nia.
Qed.
Lemma parent_refl k p : parent k k p = p.
Proof. unfold parent. rewrite Nat.sub_diag. cbn [Nat.pow]. apply Nat.div_1_r. Qed.
Lemma existsb_in x l : existsb (Nat.eqb x) l = true <-> In x l.
Proof. rewrite existsb_exists. split; [intros (y & H & E); apply Nat.eqb_eq in E; subst; exact H|intros H; exists x; rewrite Nat.eqb_refl; auto]. Qed.

(** the pixels of the coverage, without border *)
Definition inner (r2n : nat -> nat -> nat) (s c : nat) (hpix : list nat) : list nat :=
  if s =? c then map (r2n s) hpix else if c <? s then map (fun h => parent s c (r2n s h)) hpix else flat_map (fun h => children s c (r2n s h)) hpix.
Lemma inner_has r2n D s c hpix p : s <= D -> c <= D -> in_region r2n D s hpix p -> In (parent D c p) (inner r2n s c hpix).
Proof.
  intros Hs Hc (h & Hh & L). apply lies_parent in L. unfold inner. destruct (Nat.eqb_spec s c) as [->|N]; [rewrite L; apply in_map, Hh|].
  destruct (Nat.ltb_spec c s).
  - apply in_map_iff. exists h. split; [|exact Hh]. rewrite <- L. apply parent_parent. lia.
  - apply in_flat_map. exists h. split; [exact Hh|]. apply children_iff; [lia|]. rewrite parent_parent by lia. exact L.
Qed.
Lemma inner_only r2n D s c hpix p : s <= c -> c <= D -> In (parent D c p) (inner r2n s c hpix) -> in_region r2n D s hpix p.
Proof.
  intros Hs Hc H. unfold inner in H. destruct (Nat.eqb_spec s c) as [->|N].
  - apply in_map_iff in H. destruct H as (h & E & Hh). exists h. split; [exact Hh|]. apply lies_parent. congruence.
  - destruct (Nat.ltb_spec c s); [lia|]. apply in_flat_map in H. destruct H as (h & Hh & Hc'). apply children_iff in Hc'; [|lia]. rewrite parent_parent in Hc' by lia. exists h. split; [exact Hh|]. apply lies_parent, Hc'.
Qed.
