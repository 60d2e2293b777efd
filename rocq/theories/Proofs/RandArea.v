From Coq Require Import QArith Permutation Sorting.Sorted.
From Verif.Base Require Import Py PyLemmas Sort.
From Verif.Model Require Import Randoms RandArea Util.
From Verif.Spec Require Import RandArea.
From Verif.Proofs Require Import Vlim.
From Coq Require Import Lqa Lia List. Import ListNotations.

Definition zlt (x : Q) (p : rpoint) : bool := Qlt_bool (p_z p) x.
Lemma prefix_filter x l : StronglySorted Qle (map p_z l) -> ss_left (map p_z l) x = length (filter (zlt x) l).
Proof.
  unfold ss_left, zlt. induction l as [|a l IH]; intros S; [reflexivity|]. cbn in S. inversion S as [|a' l' S' F]; subst. cbn [map prefix_len filter].
  destruct (Qlt_bool (p_z a) x) eqn:E; [cbn; f_equal; apply IH, S'|]. cbn. apply Qlt_bool_false in E.
  assert (X : forall p, In p l -> Qlt_bool (p_z p) x = false). { intros p I. apply Qlt_bool_false. rewrite Forall_forall in F. specialize (F _ (in_map p_z _ _ I)). lra. }
  clear -X. induction l as [|b l IH]; [reflexivity|]. cbn. rewrite (X b) by (left; reflexivity). apply IH. intros; apply X; right; assumption.
Qed.
Lemma sorted_filter (f : rpoint -> bool) l : StronglySorted Qle (map p_z l) -> StronglySorted Qle (map p_z (filter f l)).
Proof.
  induction l as [|a l IH]; intros S; [constructor|]. cbn in S. inversion S as [|a' l' S' F]; subst. cbn. destruct (f a); [|apply IH, S']. cbn. constructor; [apply IH, S'|].
  rewrite Forall_forall in *. intros y I. apply in_map_iff in I. destruct I as (p & <- & I). apply filter_In in I. apply F, in_map, I.
Qed.
Lemma filter_perm {A} (f : A -> bool) l l' : Permutation l l' -> length (filter f l) = length (filter f l').
Proof. induction 1; cbn; try (destruct (f x); cbn; lia); [reflexivity|destruct (f x), (f y); reflexivity|lia]. Qed.
Lemma take_rows asort rows : argsort_spec asort -> exists sr, np_take rows (asort (map p_z rows)) = Ok sr /\ Permutation sr rows /\ StronglySorted Qle (map p_z sr).
Proof.
  intros HA. destruct (HA (map p_z rows)) as [P HS]. rewrite map_length in P.
  destruct (np_take_total rows (asort (map p_z rows))) as [sr E]. { intros i I. apply (Permutation_in i P) in I. apply in_seq in I. lia. }
  exists sr. split; [exact E|]. split.
  - destruct rows as [|d r]; [cbn in P; apply Permutation_sym, Permutation_nil in P; cbn [map] in E; rewrite P in E; cbn in E; injection E as <-; constructor|]. apply (take_perm _ _ sr d E P).
  - assert (G : forall i j x y, i < j -> nth_error sr i = Some x -> nth_error sr j = Some y -> (p_z x <= p_z y)%Q).
    { intros i j x y Hij Hx Hy. destruct (np_take_nth_inv _ _ _ _ _ E Hx) as [a [Ha Hxa]]. destruct (np_take_nth_inv _ _ _ _ _ E Hy) as [b [Hb Hyb]].
      apply (HS i j a b _ _ Hij Ha Hb); rewrite nth_error_map; [rewrite Hxa|rewrite Hyb]; reflexivity. }
    clear -G. induction sr as [|a r IH]; constructor.
    + apply IH. intros i j x y Hij Hx Hy. apply (G (S i) (S j)); [lia|exact Hx|exact Hy].
    + rewrite Forall_forall. intros y Hy. apply in_map_iff in Hy. destruct Hy as (p & <- & Hy). apply In_nth_error in Hy. destruct Hy as [k Hk]. apply (G 0%nat (S k)); [lia|reflexivity|exact Hk].
Qed.
Lemma below_filter z rows : below z rows = length (filter (zlt z) rows).
Proof.
  induction rows as [|p t IH]; [reflexivity|]. cbn. unfold zlt at 1. destruct (Qlt_le_dec (p_z p) z) as [L|L].
  - rewrite (proj2 (Qlt_bool_iff _ _) L). cbn. rewrite IH. reflexivity.
  - rewrite (proj2 (Qlt_bool_false _ _) L). exact IH.
Qed.
Lemma area_passes c p : area_cut c p = true <-> passes c p.
Proof. unfold area_cut, passes. rewrite !Bool.andb_true_iff, !Qlt_bool_iff. tauto. Qed.
Lemma passing_filter c z rows n : passing c z rows n <-> n = length (filter (zlt z) (filter (area_cut c) rows)).
Proof.
  split.
  - induction 1 as [|p t n L P _ IH|p t n N _ IH]; [reflexivity| |]; cbn.
    + apply area_passes in P. rewrite P. cbn. unfold zlt at 1. rewrite (proj2 (Qlt_bool_iff _ _) L). cbn. congruence.
    + destruct (area_cut c p) eqn:E; [|exact IH]. cbn. unfold zlt at 1. destruct N as [L|N]; [rewrite (proj2 (Qlt_bool_false _ _) L); exact IH|]. apply area_passes in E. contradiction.
  - revert n. induction rows as [|p t IH]; cbn; intros n ->; [constructor|]. destruct (area_cut c p) eqn:E.
    + cbn. unfold zlt at 1. destruct (Qlt_bool (p_z p) z) eqn:L; [apply passing_yes; [apply Qlt_bool_iff, L|apply area_passes, E|apply IH; reflexivity]|]. apply passing_no; [left; apply Qlt_bool_false, L|apply IH; reflexivity].
    + apply passing_no; [right; rewrite <- area_passes; congruence|apply IH; reflexivity].
Qed.
Lemma filter_comm {A} (f g : A -> bool) l : filter f (filter g l) = filter g (filter f l).
Proof. induction l as [|a l IH]; [reflexivity|]. cbn. destruct (g a) eqn:G, (f a) eqn:F; cbn; rewrite ?G, ?F, ?IH; reflexivity. Qed.
Lemma filter_le {A} (f : A -> bool) l : (length (filter f l) <= length l)%nat.
Proof. induction l as [|a l IH]; cbn; [lia|]. destruct (f a); cbn; lia. Qed.
Lemma nth_firstn_lt {A} n : forall (l : list A) i, (i < n)%nat -> nth_error (firstn n l) i = nth_error l i.
Proof. induction n as [|n IH]; intros l i L; [lia|]. destruct l as [|a l]; [destruct i; reflexivity|]. destruct i as [|i]; [reflexivity|]. cbn. apply IH. lia. Qed.
Lemma nth_combine {A B} (l : list A) : forall (m : list B) i, nth_error (combine l m) i = match nth_error l i, nth_error m i with Some a, Some b => Some (a, b) | _, _ => None end.
Proof. induction l as [|a l IH]; intros [|b m] [|i]; cbn; try reflexivity; [destruct (nth_error l i); reflexivity|apply IH]. Qed.
Lemma nth_tl {A} (l : list A) i : nth_error (tl l) i = nth_error l (S i).
Proof. destruct l; [destruct i; reflexivity|reflexivity]. Qed.

Lemma points_spec asort c rows zbins : argsort_spec asort -> exists pts, fit_points asort c rows zbins = Ok pts /\ length pts = (length zbins - 2)%nat /\
  forall k a b, (S (S k) < length zbins)%nat -> nth_error zbins k = Some a -> nth_error zbins (S k) = Some b ->
    nth_error pts k = Some ((a + b) / 2, ratio (length (filter (zlt b) (filter (area_cut c) rows))) (below b rows))%Q.
Proof.
  intros HA. destruct (take_rows asort rows HA) as (sr & E & P & S). unfold fit_points. rewrite E. cbn [bind]. eexists. split; [reflexivity|]. split.
  - rewrite combine_length, !map_length, !combine_length, !firstn_length. destruct zbins as [|z zs]; [reflexivity|]. cbn. rewrite !map_length. cbn. lia.
  - intros k a b L Ea Eb. rewrite nth_combine, !nth_error_map, !nth_combine, !nth_firstn_lt, !nth_tl, !nth_error_map, Ea, Eb by lia. cbn. f_equal. f_equal.
    rewrite !prefix_filter by (first [exact S|apply sorted_filter, S]). rewrite below_filter, (filter_perm _ _ _ P), !(filter_comm _ (area_cut c)). rewrite (filter_comm (area_cut c)). rewrite (filter_perm (zlt b) (filter (area_cut c) sr) (filter (area_cut c) rows)); [rewrite filter_comm; reflexivity|].
    clear -P. induction P; cbn; try (destruct (area_cut c x)); try (destruct (area_cut c y)); try constructor; auto. eapply perm_trans; eassumption.
Qed.
Lemma ratio_bounds g n : (g <= n)%nat -> (0 <= ratio g n <= 1)%Q.
Proof.
  intros L. unfold ratio. destruct (Nat.eqb_spec n 0); [lra|]. unfold Qnat. assert (0 < inject_Z (Z.of_nat n))%Q by (unfold Qlt; cbn; lia). split.
  - apply Qle_shift_div_l; [assumption|]. rewrite Qmult_0_l. unfold Qle; cbn; lia.
  - apply Qle_shift_div_r; [assumption|]. rewrite Qmult_1_l. rewrite <- Zle_Qle. lia.
Qed.
Lemma clip01 x : (0 <= clipQ 0 1 x <= 1)%Q.
Proof.
  unfold clipQ, Qmin2, Qmax2. destruct (Qle_bool x 0) eqn:A; [apply Qle_bool_iff in A|apply Qle_bool_false in A]; destruct (Qle_bool _ 1) eqn:B; try (apply Qle_bool_iff in B); lra.
Qed.
