(** Lemmas about the primitives of [Py]. *)
From Verif.Base Require Import Py.
From Coq Require Import Sorting.Sorted Permutation Lqa.

Lemma where_from_spec {A} (p : A -> bool) l i j :
  In j (where_from p i l) <-> exists x, nth_error l (j - i) = Some x /\ p x = true /\ i <= j.
Proof.
  revert i; induction l as [|a l IH]; intros i; cbn.
  - split; [tauto|]. intros (x & H & _). destruct (j - i); discriminate.
  - assert (step : (exists x, nth_error l (j - S i) = Some x /\ p x = true /\ S i <= j) <->
                   (exists x, nth_error (a :: l) (j - i) = Some x /\ p x = true /\ i < j)).
    { split; intros (x & H1 & H2 & H3); exists x; (split; [|split; [assumption|lia]]).
      - replace (j - i) with (S (j - S i)) by lia. exact H1.
      - replace (j - i) with (S (j - S i)) in H1 by lia. exact H1. }
    destruct (p a) eqn:Hp; cbn; rewrite IH, step; split.
    + intros [->|(x & H1 & H2 & H3)].
      * exists a. replace (j - j) with 0 by lia. repeat split; auto.
      * exists x. repeat split; auto. lia.
    + intros (x & H1 & H2 & H3). destruct (Nat.eq_dec i j) as [->|n]; [left; reflexivity|].
      right. exists x. repeat split; auto. lia.
    + intros (x & H1 & H2 & H3). exists x. repeat split; auto. lia.
    + intros (x & H1 & H2 & H3). exists x. repeat split; auto.
      destruct (Nat.eq_dec i j) as [->|n]; [|lia].
      replace (j - j) with 0 in H1 by lia. cbn in H1. congruence.
Qed.

Lemma np_where_spec {A} (p : A -> bool) l j :
  In j (np_where p l) <-> exists x, nth_error l j = Some x /\ p x = true.
Proof.
  unfold np_where. rewrite where_from_spec. replace (j - 0) with j by lia.
  split; intros (x & H); exists x; intuition lia.
Qed.

Lemma where_from_ge {A} (p : A -> bool) l i j : In j (where_from p i l) -> i <= j.
Proof. rewrite where_from_spec. intros (x & _ & _ & H); exact H. Qed.

Lemma where_from_sorted {A} (p : A -> bool) l i : StronglySorted lt (where_from p i l).
Proof.
  revert i; induction l as [|a l IH]; intros i; cbn; [constructor|].
  destruct (p a); [|apply IH].
  constructor; [apply IH|]. apply Forall_forall. intros j Hj.
  apply where_from_ge in Hj. lia.
Qed.

Lemma SS_lt_NoDup (l : list nat) : StronglySorted lt l -> NoDup l.
Proof.
  induction 1 as [|a l Hs IH Hf]; constructor; auto.
  intros Hin. rewrite Forall_forall in Hf. specialize (Hf _ Hin). lia.
Qed.

Lemma np_where_NoDup {A} (p : A -> bool) l : NoDup (np_where p l).
Proof. apply SS_lt_NoDup, where_from_sorted. Qed.

Lemma np_sel_app {A} (l : list A) i1 i2 : np_sel l (i1 ++ i2) = np_sel l i1 ++ np_sel l i2.
Proof.
  induction i1 as [|a i1 IH]; cbn; [reflexivity|].
  destruct (nth_error l a); cbn; rewrite IH; reflexivity.
Qed.

Lemma np_sel_shift {A} (a : A) l idx :
  np_sel (a :: l) (map S idx) = np_sel l idx.
Proof. induction idx as [|i idx IH]; cbn; [reflexivity|]. rewrite IH. reflexivity. Qed.

Lemma where_from_shift {A} (p : A -> bool) l i : where_from p (S i) l = map S (where_from p i l).
Proof.
  revert i; induction l as [|a l IH]; intros i; cbn; [reflexivity|].
  destruct (p a); cbn; rewrite IH; reflexivity.
Qed.

(** [arr[np.where(p(arr))]] is filtering. *)
Lemma np_sel_where_filter {A} (p : A -> bool) l : np_sel l (np_where p l) = filter p l.
Proof.
  unfold np_where. induction l as [|a l IH]; cbn; [reflexivity|].
  destruct (p a) eqn:Hp; cbn; rewrite where_from_shift, np_sel_shift, IH; reflexivity.
Qed.

Lemma np_take_sel {A} (l : list A) idx r : np_take l idx = Ok r -> np_sel l idx = r.
Proof.
  revert r; induction idx as [|i idx IH]; intros r; cbn.
  - intros [= <-]; reflexivity.
  - destruct (nth_error l i); [|discriminate].
    destruct (np_take l idx) as [r'|]; cbn; [|discriminate].
    intros [= <-]. rewrite (IH r'); reflexivity.
Qed.

Lemma np_take_ok {A} (l : list A) idx :
  (forall i, In i idx -> i < List.length l) -> np_take l idx = Ok (np_sel l idx).
Proof.
  induction idx as [|i idx IH]; intros H; cbn; [reflexivity|].
  destruct (nth_error l i) eqn:E.
  - rewrite IH; [reflexivity|]. intros; apply H; right; assumption.
  - apply nth_error_None in E. specialize (H i (or_introl eq_refl)). lia.
Qed.

Lemma np_sel_length {A} (l : list A) idx :
  (forall i, In i idx -> i < List.length l) -> List.length (np_sel l idx) = List.length idx.
Proof.
  induction idx as [|i idx IH]; intros H; cbn; [reflexivity|].
  destruct (nth_error l i) eqn:E.
  - cbn. rewrite IH; [reflexivity|]. intros; apply H; right; assumption.
  - apply nth_error_None in E. specialize (H i (or_introl eq_refl)). lia.
Qed.

Lemma np_sel_nth {A} (l : list A) idx k :
  (forall i, In i idx -> i < List.length l) ->
  nth_error (np_sel l idx) k =
  match nth_error idx k with Some i => nth_error l i | None => None end.
Proof.
  revert k; induction idx as [|i idx IH]; intros k H; cbn; [destruct k; reflexivity|].
  destruct (nth_error l i) eqn:E.
  - destruct k; cbn; [symmetry; exact E|]. apply IH. intros; apply H; right; assumption.
  - apply nth_error_None in E. specialize (H i (or_introl eq_refl)). lia.
Qed.

Lemma np_sel_In {A} (l : list A) idx x :
  In x (np_sel l idx) <-> exists i, In i idx /\ nth_error l i = Some x.
Proof.
  induction idx as [|i idx IH]; cbn; [firstorder|].
  destruct (nth_error l i) eqn:E; cbn; rewrite IH; split.
  - intros [->|(j & H1 & H2)]; [exists i; auto|exists j; auto].
  - intros (j & [->|H1] & H2); [left; congruence|right; exists j; auto].
  - intros (j & H1 & H2); exists j; auto.
  - intros (j & [->|H1] & H2); [congruence|exists j; auto].
Qed.

(** ** prefix length / searchsorted *)
Lemma prefix_len_le {A} (p : A -> bool) l : prefix_len p l <= List.length l.
Proof. induction l as [|a l IH]; cbn; [lia|]. destruct (p a); lia. Qed.

Lemma prefix_len_before {A} (p : A -> bool) l i x :
  i < prefix_len p l -> nth_error l i = Some x -> p x = true.
Proof.
  revert i; induction l as [|a l IH]; intros i; cbn; [lia|].
  destruct (p a) eqn:E; [|lia]. destruct i; cbn; [congruence|]. intros; eapply IH; eauto; lia.
Qed.

Lemma prefix_len_at {A} (p : A -> bool) l x :
  nth_error l (prefix_len p l) = Some x -> p x = false.
Proof.
  induction l as [|a l IH]; cbn; [discriminate|].
  destruct (p a) eqn:E; cbn; [assumption|congruence].
Qed.

Lemma Qlt_bool_iff x y : Qlt_bool x y = true <-> (x < y)%Q.
Proof.
  unfold Qlt_bool. rewrite negb_true_iff. split.
  - intros H. apply Qnot_le_lt. intros H'. apply Qle_bool_iff in H'. congruence.
  - intros H. destruct (Qle_bool y x) eqn:E; [|reflexivity].
    apply Qle_bool_iff in E. exfalso. apply (Qlt_not_le _ _ H E).
Qed.
Lemma Qlt_bool_false x y : Qlt_bool x y = false <-> (y <= x)%Q.
Proof.
  unfold Qlt_bool. rewrite negb_false_iff. apply Qle_bool_iff.
Qed.
Lemma Qle_bool_false x y : Qle_bool x y = false <-> (y < x)%Q.
Proof.
  split.
  - intros H. apply Qnot_le_lt. intros H'. apply Qle_bool_iff in H'. congruence.
  - intros H. destruct (Qle_bool x y) eqn:E; [|reflexivity].
    apply Qle_bool_iff in E. exfalso. apply (Qlt_not_le _ _ H E).
Qed.

Lemma SS_nth {A} (R : A -> A -> Prop) l i j x y :
  StronglySorted R l -> i < j -> nth_error l i = Some x -> nth_error l j = Some y -> R x y.
Proof.
  intros Hs; revert i j; induction Hs as [|a l Hs IH Hf]; intros i j Hij; [destruct i; discriminate|].
  destruct i, j; cbn; try lia; intros Hx Hy.
  - injection Hx as <-. rewrite Forall_forall in Hf. apply Hf. eapply nth_error_In; eauto.
  - eapply IH; [|exact Hx|exact Hy]; lia.
Qed.

Lemma ss_left_spec a x i y :
  StronglySorted Qle a -> nth_error a i = Some y ->
  (i < ss_left a x <-> (y < x)%Q).
Proof.
  intros Hs Hi. split.
  - intros H. apply Qlt_bool_iff. exact (prefix_len_before _ _ _ _ H Hi).
  - intros H. destruct (Nat.lt_ge_cases i (ss_left a x)) as [|Hge]; [assumption|exfalso].
    assert (Hlen : i < List.length a) by (apply nth_error_Some; congruence).
    destruct (nth_error a (ss_left a x)) as [z|] eqn:Ez.
    + pose proof (prefix_len_at _ _ _ Ez) as Hz. apply Qlt_bool_false in Hz.
      destruct (Nat.eq_dec i (ss_left a x)) as [e|n].
      * rewrite <- e in Ez. assert (z = y) by congruence. subst. lra.
      * assert (ss_left a x < i) as Hlt by lia.
        pose proof (SS_nth _ _ _ _ _ _ Hs Hlt Ez Hi). lra.
    + apply nth_error_None in Ez. lia.
Qed.

Lemma ss_right_spec a x i y :
  StronglySorted Qle a -> nth_error a i = Some y ->
  (i < ss_right a x <-> (y <= x)%Q).
Proof.
  intros Hs Hi. split.
  - intros H. apply Qle_bool_iff. exact (prefix_len_before _ _ _ _ H Hi).
  - intros H. destruct (Nat.lt_ge_cases i (ss_right a x)) as [|Hge]; [assumption|exfalso].
    assert (Hlen : i < List.length a) by (apply nth_error_Some; congruence).
    destruct (nth_error a (ss_right a x)) as [z|] eqn:Ez.
    + pose proof (prefix_len_at _ _ _ Ez) as Hz. apply Qle_bool_false in Hz.
      destruct (Nat.eq_dec i (ss_right a x)) as [e|n].
      * rewrite <- e in Ez. assert (z = y) by congruence. subst. lra.
      * assert (ss_right a x < i) as Hlt by lia.
        pose proof (SS_nth _ _ _ _ _ _ Hs Hlt Ez Hi). lra.
    + apply nth_error_None in Ez. lia.
Qed.

(** ** match *)
Lemma index_ofZ_nth x l i : index_ofZ x l = Some i -> nth_error l i = Some x.
Proof.
  revert i; induction l as [|y l IH]; intros i; cbn; [discriminate|].
  destruct (Z.eqb_spec x y) as [->|n]; [intros [= <-]; reflexivity|].
  destruct (index_ofZ x l); [|discriminate]. intros [= <-]. cbn. apply IH; reflexivity.
Qed.
Lemma index_ofZ_None x l : index_ofZ x l = None <-> ~ In x l.
Proof.
  induction l as [|y l IH]; cbn; [firstorder|].
  destruct (Z.eqb_spec x y) as [->|n].
  - split; [discriminate|]. intros H; exfalso; apply H; left; reflexivity.
  - destruct (index_ofZ x l) as [i|] eqn:E.
    + split; [discriminate|]. intros H; exfalso; apply H; right.
      apply nth_error_In with i. apply index_ofZ_nth; assumption.
    + split; [|reflexivity]. intros _ [->|H]; [congruence|]. apply IH; auto.
Qed.
Lemma index_ofZ_In x l : In x l -> exists i, index_ofZ x l = Some i.
Proof.
  intros H. destruct (index_ofZ x l) as [i|] eqn:E; [exists i; reflexivity|].
  apply index_ofZ_None in E. contradiction.
Qed.

Lemma nodupZ_iff l : nodupZ l = true <-> NoDup l.
Proof.
  induction l as [|x l IH]; cbn.
  - split; [constructor|reflexivity].
  - change ((fix go (l0 : list Z) : bool := match l0 with
            | [] => true | x0 :: t => negb (existsb (Z.eqb x0) t) && go t end) l) with (nodupZ l).
    rewrite andb_true_iff, negb_true_iff, IH. split.
    + intros [H1 H2]. constructor; [|assumption]. intros Hin.
      assert (existsb (Z.eqb x) l = true) by (apply existsb_exists; exists x; split; [assumption|apply Z.eqb_refl]).
      congruence.
    + inversion 1 as [|? ? Hn Hd]; subst. split; [|assumption].
      destruct (existsb (Z.eqb x) l) eqn:E; [|reflexivity].
      apply existsb_exists in E. destruct E as (y & Hy & Heq). apply Z.eqb_eq in Heq. subst. contradiction.
Qed.

Lemma match_from_length a1 a2 j s1 s2 :
  match_from a1 j a2 = (s1, s2) -> List.length s1 = List.length s2.
Proof.
  revert j s1 s2; induction a2 as [|y t IH]; intros j s1 s2; cbn.
  - intros [= <- <-]; reflexivity.
  - destruct (match_from a1 (S j) t) as [u v] eqn:E. specialize (IH _ _ _ E).
    destruct (index_ofZ y a1); intros [= <- <-]; cbn; lia.
Qed.

Lemma match_from_snd a1 a2 j :
  snd (match_from a1 j a2) =
  where_from (fun y => match index_ofZ y a1 with Some _ => true | None => false end) j a2.
Proof.
  revert j; induction a2 as [|y t IH]; intros j; cbn; [reflexivity|].
  specialize (IH (S j)). destruct (match_from a1 (S j) t) as [u v]. cbn in IH.
  destruct (index_ofZ y a1); cbn; rewrite IH; reflexivity.
Qed.

Lemma match_from_fst a1 a2 j :
  fst (match_from a1 j a2) =
  flat_map (fun y => match index_ofZ y a1 with Some i => [i] | None => [] end) a2.
Proof.
  revert j; induction a2 as [|y t IH]; intros j; cbn; [reflexivity|].
  specialize (IH (S j)). destruct (match_from a1 (S j) t) as [u v]. cbn in IH.
  destruct (index_ofZ y a1); cbn; rewrite IH; reflexivity.
Qed.

(** ** sums *)
Lemma Qsum_app l1 l2 : (Qsum (l1 ++ l2) == Qsum l1 + Qsum l2)%Q.
Proof. induction l1 as [|x l1 IH]; cbn; [ring|]. rewrite IH. ring. Qed.
Lemma Qsum_nonneg l : (forall x, In x l -> 0 <= x)%Q -> (0 <= Qsum l)%Q.
Proof.
  induction l as [|x l IH]; intros H; cbn; [lra|].
  specialize (IH (fun y Hy => H y (or_intror Hy))). specialize (H x (or_introl eq_refl)). lra.
Qed.
Lemma cumsum_from_length a l : List.length (cumsum_from a l) = List.length l.
Proof. revert a; induction l; intros; cbn; auto. Qed.
Lemma cumsum_from_nth a l i :
  i < List.length l ->
  exists y, nth_error (cumsum_from a l) i = Some y /\ (y == a + Qsum (firstn (S i) l))%Q.
Proof.
  revert a i; induction l as [|x l IH]; intros a i Hi; cbn in Hi; [lia|].
  destruct i.
  - exists (a + x)%Q. split; [reflexivity|]. cbn [firstn Qsum]. ring.
  - cbn. destruct (IH (a + x)%Q i ltac:(lia)) as (y & Hy & He).
    exists y. split; [assumption|]. rewrite He. cbn [firstn Qsum]. ring.
Qed.

Lemma where_from_map {A B} (f : A -> B) (p : B -> bool) l i :
  where_from p i (map f l) = where_from (fun x => p (f x)) i l.
Proof. revert i; induction l as [|a l IH]; intros i; cbn; [reflexivity|]. rewrite IH. reflexivity. Qed.
Lemma where_from_ext {A} (p q : A -> bool) l i : (forall x, p x = q x) -> where_from p i l = where_from q i l.
Proof. intros H. revert i; induction l as [|a l IH]; intros i; cbn; [reflexivity|]. rewrite H, IH. reflexivity. Qed.

Lemma NoDup_app_intro {A} (l1 l2 : list A) : NoDup l1 -> NoDup l2 ->
  (forall x, In x l1 -> In x l2 -> False) -> NoDup (l1 ++ l2).
Proof.
  intros H1 H2 H3. induction H1 as [|a l Ha Hl IH]; cbn [app]; [exact H2|].
  constructor; [|apply IH; intros x Hx; apply H3; right; exact Hx].
  intros Hi. apply in_app_or in Hi. destruct Hi as [Hi|Hi]; [contradiction|]. eapply H3; [left; reflexivity|exact Hi].
Qed.
Lemma NoDup_concat_map {A B} (f : A -> list B) (l : list A) : NoDup l -> (forall i, In i l -> NoDup (f i)) ->
  (forall i j x, In i l -> In j l -> In x (f i) -> In x (f j) -> i = j) -> NoDup (List.concat (map f l)).
Proof.
  intros Hl. induction Hl as [|a l Ha Hl IH]; intros Hf Hd; [constructor|]. cbn [map List.concat].
  apply NoDup_app_intro; [apply Hf; left; reflexivity| |].
  - apply IH; [intros; apply Hf; right; assumption|]. intros i j x Hi Hj. apply Hd; right; assumption.
  - intros x H1 H2. apply in_concat in H2. destruct H2 as (c & Hc & Hx). apply in_map_iff in Hc.
    destruct Hc as (j & <- & Hj). assert (a = j) by (eapply Hd; eauto; [left; reflexivity|right; exact Hj]).
    subst j. contradiction.
Qed.

Lemma np_take_len {A} (l : list A) idx r : np_take l idx = Ok r -> List.length r = List.length idx.
Proof.
  revert r; induction idx as [|i idx IH]; intros r; cbn; [intros [= <-]; reflexivity|].
  destruct (nth_error l i); [|discriminate]. destruct (np_take l idx); cbn; [|discriminate].
  intros [= <-]. cbn. f_equal. apply IH. reflexivity.
Qed.
Lemma np_take_nth {A} (l : list A) idx r k i : np_take l idx = Ok r -> nth_error idx k = Some i ->
  exists x, nth_error l i = Some x /\ nth_error r k = Some x.
Proof.
  revert r k; induction idx as [|j idx IH]; intros r k; cbn; [destruct k; discriminate|].
  destruct (nth_error l j) as [x|] eqn:E; [|discriminate]. destruct (np_take l idx) as [r'|]; cbn; [|discriminate].
  intros [= <-]. destruct k as [|k]; cbn.
  - intros [= <-]. exists x. auto.
  - apply IH. reflexivity.
Qed.
Lemma np_take_nth_inv {A} (l : list A) idx r k x : np_take l idx = Ok r -> nth_error r k = Some x ->
  exists i, nth_error idx k = Some i /\ nth_error l i = Some x.
Proof.
  intros H Hk. assert (Hl : k < List.length idx). { rewrite <- (np_take_len _ _ _ H). apply nth_error_Some. congruence. }
  destruct (nth_error idx k) as [i|] eqn:E; [|apply nth_error_None in E; lia].
  destruct (np_take_nth _ _ _ _ _ H E) as [y [H1 H2]]. exists i. split; congruence.
Qed.
Lemma np_take_total {A} (l : list A) idx : (forall i, In i idx -> i < List.length l) -> exists r, np_take l idx = Ok r.
Proof.
  intros H. induction idx as [|i idx IH]; cbn; [eauto|].
  destruct (nth_error l i) eqn:E; [|apply nth_error_None in E; specialize (H i (or_introl eq_refl)); lia].
  destruct IH as [r Hr]; [intros j Hj; apply H; right; exact Hj|]. rewrite Hr. cbn. eauto.
Qed.
Lemma np_take_In {A} (l : list A) idx r x : np_take l idx = Ok r -> (In x r <-> exists i, In i idx /\ nth_error l i = Some x).
Proof.
  intros H. split.
  - intros Hx. apply In_nth_error in Hx. destruct Hx as [k Hk]. destruct (np_take_nth_inv _ _ _ _ _ H Hk) as [i [H1 H2]].
    exists i. split; [apply nth_error_In with k; exact H1|exact H2].
  - intros [i [Hi Hx]]. apply In_nth_error in Hi. destruct Hi as [k Hk].
    destruct (np_take_nth _ _ _ _ _ H Hk) as [y [H1 H2]]. apply nth_error_In with k. congruence.
Qed.

Lemma nth_error_ext {A} (l m : list A) : (forall i, nth_error l i = nth_error m i) -> l = m.
Proof.
  revert m; induction l as [|a l IH]; intros [|b m] H.
  - reflexivity.
  - specialize (H 0). discriminate.
  - specialize (H 0). discriminate.
  - f_equal; [specialize (H 0); cbn in H; congruence|]. apply IH. intros i. apply (H (S i)).
Qed.
