(** Lemmas on parts of a map. *)
From Coq Require Import ZArith List.
From Verif.Base Require Import Py PyLemmas.
From Verif.Model Require Import SubMask.
From Verif.Spec Require Import SubMask.
From Coq Require Import Lia. Import ListNotations.
Local Open Scope Z_scope.

Lemma arange_In n x : In x (arange n) <-> 0 <= x < n.
Proof.
  unfold arange. rewrite in_map_iff. split.
  - intros (i & <- & H). apply in_seq in H. lia.
  - intros H. exists (Z.to_nat x). split; [lia|]. apply in_seq. lia.
Qed.
Lemma ins_In x y l : In y (ins x l) <-> y = x \/ In y l.
Proof.
  induction l as [|z t IH]; cbn [ins In]; [intuition congruence|]. destruct (x <? z); [cbn [In]; intuition congruence|]. destruct (x =? z) eqn:E; [apply Z.eqb_eq in E; subst; cbn [In]; intuition congruence|]. cbn [In]. rewrite IH. tauto.
Qed.
Lemma unique_In y l : In y (unique l) <-> In y l.
Proof. unfold unique. induction l as [|x t IH]; [tauto|]. cbn [fold_right In]. rewrite ins_In, IH. intuition congruence. Qed.
Lemma discs_In (f : Z -> list Z) pts acc x : In x (fold_left (fun acc pt => unique (acc ++ f pt)) pts acc) <-> In x acc \/ exists pt, In pt pts /\ In x (f pt).
Proof.
  revert acc. induction pts as [|p t IH]; intros acc; cbn [fold_left].
  - split; [tauto|]. intros [H|(pt & [] & _)]. exact H.
  - rewrite IH, unique_In, in_app_iff. split.
    + intros [[H|H]|(pt & H & K)]; [tauto|right; exists p; split; [left; reflexivity|exact H]|right; exists pt; split; [right; exact H|exact K]].
    + intros [H|(pt & [<-|H] & K)]; [tauto|tauto|right; exists pt; tauto].
Qed.
Lemma region_In g c s h b x : In x (region g c s h b) <-> (0 <= x < npix c /\ m_in g c s x = h) \/ (b = true /\ exists pt, In pt (m_edge g s h (c / s)) /\ In x (m_disc g c pt)).
Proof.
  assert (I : In x (inside g c s h) <-> 0 <= x < npix c /\ m_in g c s x = h) by (unfold inside; rewrite filter_In, arange_In, Z.eqb_eq; tauto).
  unfold region. destruct b; [rewrite discs_In, I; tauto|rewrite I]. split; [tauto|]. intros [H|[H _]]; [exact H|discriminate].
Qed.
Lemma subpix_In g s h b m hpix i : In i (subpix_indices g s h b m hpix) <-> exists p, nth_error hpix i = Some p /\ In (m_in g m (cutref s m) p) (region g (cutref s m) s h b).
Proof.
  unfold subpix_indices. rewrite np_where_spec. split; intros (p & H & K); exists p; (split; [exact H|]).
  - apply existsb_exists in K as (y & Y & E). apply Z.eqb_eq in E. congruence.
  - apply existsb_exists. eexists. split; [exact K|]. apply Z.eqb_refl.
Qed.
Lemma pow_max a b : 0 <= a -> 0 <= b -> Z.max (2^a) (2^b) = 2^(Z.max a b).
Proof. intros A B. destruct (Z.le_ge_cases a b) as [H|H]; [rewrite (Z.max_r a b), Z.max_r by (try apply Z.pow_le_mono_r; lia)|rewrite (Z.max_l a b), Z.max_l by (try apply Z.pow_le_mono_r; lia)]; reflexivity. Qed.
Lemma pow_min a b : 0 <= a -> 0 <= b -> Z.min (2^a) (2^b) = 2^(Z.min a b).
Proof. intros A B. destruct (Z.le_ge_cases a b) as [H|H]; [rewrite (Z.min_l a b), Z.min_l by (try apply Z.pow_le_mono_r; lia)|rewrite (Z.min_r a b), Z.min_r by (try apply Z.pow_le_mono_r; lia)]; reflexivity. Qed.
Lemma cutref_pow a b : 0 <= a -> 0 <= b -> cutref (2^a) (2^b) = 2^(Z.min (Z.max (a + 2) 8) b).
Proof.
  intros A B. unfold cutref. change 256 with (2^8). change 4 with (2^2). rewrite <- Z.pow_add_r, pow_max, pow_min by lia. reflexivity.
Qed.
