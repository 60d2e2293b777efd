From Coq Require Import QArith Lqa Permutation.
From Verif.Base Require Import Py PyLemmas Sort.
From Verif.Model Require Import Runner Percolate.
From Verif.Spec Require Import Percolate.
From Verif.Proofs Require Import Runner.
From Coq Require Import Lqa Lia List ZArith.
Import ListNotations.
Local Open Scope nat_scope.
Local Open Scope list_scope.

(** *** One cluster *)
Lemma body_later o g i s : 1 <= i -> let '(s', bad) := body o g i s in
  t_z s' = t_z s /\ t_zl s' = t_zl s /\
  (bad = false <-> 2 <= o_lc o i (t_z s) /\ (g_minlambda g <= snd (o_rich o i (t_z s)))%Q /\ (g_cut g <= o_cfree o)%Q /\ (0 <= t_zl s)%Q) /\
  (bad = false -> t_lambda s' = fst (o_rich o i (t_z s))).
Proof.
  intros Hi. unfold body. destruct (o_lc o i (t_z s) <? 2) eqn:E; [apply Nat.ltb_lt in E|apply Nat.ltb_ge in E].
  - split; [reflexivity|]. split; [reflexivity|]. split; [|discriminate]. split; [discriminate|]. lia.
  - destruct (o_rich o i (t_z s)) as [lam ratio]. cbn [fst snd]. destruct (Qlt_bool ratio (g_minlambda g)) eqn:E1; cbn [orb].
    { apply Qlt_bool_iff in E1. split; [reflexivity|]. split; [reflexivity|]. split; [|discriminate]. split; [discriminate|]. intros (_ & H & _). Lqa.lra. }
    apply Qlt_bool_false in E1. destruct (Qlt_bool (o_cfree o) (g_cut g)) eqn:E2.
    { apply Qlt_bool_iff in E2. split; [reflexivity|]. split; [reflexivity|]. split; [|discriminate]. split; [discriminate|]. intros (_ & _ & H & _). Lqa.lra. }
    apply Qlt_bool_false in E2. destruct i as [|i]; [lia|]. cbn [Nat.eqb t_z t_zl t_lambda]. split; [reflexivity|]. split; [reflexivity|].
    split; [|reflexivity]. destruct (Qlt_bool (t_zl s) 0) eqn:E3; [apply Qlt_bool_iff in E3|apply Qlt_bool_false in E3].
    + split; [discriminate|]. intros (_ & _ & _ & H). Lqa.lra.
    + split; auto.
Qed.
Lemma body_first o g s : let '(s', bad) := body o g 0 s in
  (bad = false <-> 2 <= o_lc o 0 (t_z s) /\ (g_minlambda g <= snd (o_rich o 0 (t_z s)))%Q /\ (g_cut g <= o_cfree o)%Q /\ (0 <= o_zlam o (t_z s))%Q) /\
  (bad = false -> t_lambda s' = fst (o_rich o 0 (t_z s)) /\ t_zl s' = o_zlam o (t_z s) /\
     t_z s' = (if negb (g_keepz g) && negb (Qle_bool (o_zlam o (t_z s)) 0) then o_zlam o (t_z s) else t_z s)).
Proof.
  unfold body. destruct (o_lc o 0 (t_z s) <? 2) eqn:E; [apply Nat.ltb_lt in E|apply Nat.ltb_ge in E].
  - split; [|discriminate]. split; [discriminate|]. lia.
  - destruct (o_rich o 0 (t_z s)) as [lam ratio]. cbn [fst snd]. destruct (Qlt_bool ratio (g_minlambda g)) eqn:E1; cbn [orb].
    { apply Qlt_bool_iff in E1. split; [|discriminate]. split; [discriminate|]. intros (_ & H & _). Lqa.lra. }
    apply Qlt_bool_false in E1. destruct (Qlt_bool (o_cfree o) (g_cut g)) eqn:E2.
    { apply Qlt_bool_iff in E2. split; [|discriminate]. split; [discriminate|]. intros (_ & _ & H & _). Lqa.lra. }
    apply Qlt_bool_false in E2. cbn [Nat.eqb t_z t_zl t_lambda]. split; [|].
    + destruct (Qlt_bool (o_zlam o (t_z s)) 0) eqn:E3; [apply Qlt_bool_iff in E3|apply Qlt_bool_false in E3].
      * split; [discriminate|]. intros (_ & _ & _ & H). Lqa.lra.
      * split; auto.
    + intros _. split; [reflexivity|]. split; [reflexivity|]. unfold Qlt_bool. reflexivity.
Qed.
Lemma iterate_bad o g n i s : iterate o g n i s true = (reset s, true).
Proof. destruct n; cbn; [reflexivity|]. rewrite Bool.orb_true_r. reflexivity. Qed.
Lemma iterate_flag o g n : forall i s bad s', iterate o g n i s bad = (s', true) -> t_lambda s' = (-1)%Q /\ t_zl s' = (-1)%Q.
Proof.
  induction n as [|n IH]; intros i s bad s'; cbn.
  - destruct bad; intros [= <-]; cbn; auto.
  - destruct (Qlt_bool (t_z s) 0 || bad); [intros [= <-]; cbn; auto|]. destruct (body o g i s) as [s1 b1]. apply IH.
Qed.
Lemma iterate_later o g n : forall i s, 1 <= i -> (0 <= t_z s)%Q -> (0 <= t_zl s)%Q -> (g_cut g <= o_cfree o)%Q ->
  let '(s', bad) := iterate o g n i s false in
  (bad = false <-> (forall j, i <= j -> j < i + n -> 2 <= o_lc o j (t_z s) /\ (g_minlambda g <= snd (o_rich o j (t_z s)))%Q)) /\
  (bad = false -> t_z s' = t_z s /\ t_zl s' = t_zl s /\ t_lambda s' = match n with 0 => t_lambda s | S n' => fst (o_rich o (i + n') (t_z s)) end).
Proof.
  induction n as [|n IH]; intros i s Hi Hz Hl Hc.
  - cbn. split; [|auto]. split; [|auto]. intros _ j H1 H2. lia.
  - cbn [iterate]. assert (E : Qlt_bool (t_z s) 0 = false) by (apply Qlt_bool_false; exact Hz). rewrite E. cbn [orb].
    pose proof (body_later o g i s Hi) as B. destruct (body o g i s) as [s1 b1]. destruct B as (B1 & B2 & B3 & B4).
    destruct b1.
    + rewrite iterate_bad. split; [|discriminate]. split; [discriminate|]. intros H. exfalso.
      destruct (H i) as [H1 H2]; [lia|lia|]. assert (true = false) by (apply B3; auto). discriminate.
    + destruct (proj1 B3 eq_refl) as (C1 & C2 & _ & _). specialize (B4 eq_refl).
      specialize (IH (S i) s1). rewrite B1, B2 in IH. specialize (IH ltac:(lia) Hz Hl Hc).
      destruct (iterate o g n (S i) s1 false) as [s2 b2]. destruct IH as [I1 I2]. split.
      * rewrite I1. split; intros H j H1 H2.
        { destruct (Nat.eq_dec j i) as [->|D]; [auto|]. apply H; lia. }
        { apply H; lia. }
      * intros Hb. destruct (I2 Hb) as (J1 & J2 & J3). split; [exact J1|]. split; [exact J2|]. rewrite J3.
        destruct n; [rewrite Nat.add_0_r; exact B4|]. f_equal. f_equal. lia.
Qed.
Lemma iterate_all o g n s z1 : t_z s = z1 -> (0 <= z1)%Q ->
  let zn := (if negb (g_keepz g) && negb (Qle_bool (o_zlam o z1) 0) then o_zlam o z1 else z1) in
  let za := fun i => if i =? 0 then z1 else zn in
  let '(s', bad) := iterate o g (S n) 0 s false in
  (bad = false <-> (g_cut g <= o_cfree o)%Q /\ (0 <= o_zlam o z1)%Q /\
     (forall j, j < S n -> 2 <= o_lc o j (za j) /\ (g_minlambda g <= snd (o_rich o j (za j)))%Q)) /\
  (bad = false -> t_z s' = zn /\ t_zl s' = o_zlam o z1 /\ t_lambda s' = fst (o_rich o n (za n))).
Proof.
  intros Ez Hz zn za. cbn [iterate]. assert (E : Qlt_bool (t_z s) 0 = false) by (apply Qlt_bool_false; rewrite Ez; exact Hz). rewrite E. cbn [orb].
  pose proof (body_first o g s) as B. destruct (body o g 0 s) as [s1 b1]. rewrite Ez in B. destruct B as (B1 & B2).
  destruct b1.
  - rewrite iterate_bad. split; [|discriminate]. split; [discriminate|]. intros (H1 & H2 & H3). exfalso.
    destruct (H3 0) as [H4 H5]; [lia|]. cbn in H4, H5. assert (true = false) by (apply B1; auto). discriminate.
  - destruct (proj1 B1 eq_refl) as (C1 & C2 & C3 & C4). destruct (B2 eq_refl) as (D1 & D2 & D3). fold zn in D3.
    assert (Hn : (0 <= zn)%Q) by (unfold zn; destruct (negb (g_keepz g) && _); assumption).
    pose proof (iterate_later o g n 1 s1 ltac:(lia)) as I. rewrite D2, D3 in I. specialize (I Hn C4 C3).
    destruct (iterate o g n 1 s1 false) as [s2 b2]. destruct I as [I1 I2]. split.
    + rewrite I1. split.
      * intros H. split; [exact C3|]. split; [exact C4|]. intros [|j] Hj; [cbn; auto|]. apply H; lia.
      * intros (_ & _ & H) [|j] H1 H2; [lia|]. apply (H (S j)); lia.
    + intros Hb. destruct (I2 Hb) as (J1 & J2 & J3). split; [exact J1|]. split; [exact J2|]. rewrite J3. destruct n; [exact D1|reflexivity].
Qed.

(** *** The seeds *)
Lemma use_good_iff c s : use_row c s && good_row s = true <->
  in_range c (s_z s) /\ (exists v, s_like s = Some v) /\ (p_minlambda c < s_lambda s)%Q /\ (s_refmag s < s_mlim s)%Q.
Proof.
  unfold use_row, good_row. rewrite !Bool.andb_true_iff, !Qlt_bool_iff.
  assert (R : (zlow c < s_z s)%Q /\ (s_z s < zhigh c)%Q <-> in_range c (s_z s)).
  { unfold zlow, zhigh, in_range. destruct (p_keepz c); [|tauto]. destruct (Qlt_bool (1 # 20) (p_z0 c - p_cushion c)) eqn:E.
    - apply Qlt_bool_iff in E. split; intros H; repeat split; try Lqa.lra.
    - apply Qlt_bool_false in E. split; intros H; repeat split; try Lqa.lra. }
  assert (L : (match s_like s with Some _ => true | None => false end) = true <-> exists v, s_like s = Some v).
  { destruct (s_like s) as [v|]; split; intros H; try discriminate; try (destruct H as [v0 H]; discriminate); eauto. }
  rewrite <- R, <- L. tauto.
Qed.
Lemma take_perm {A} (l : list A) idx r : np_take l idx = Ok r -> Permutation idx (seq 0 (length l)) -> Permutation r l.
Proof.
  intros H P. destruct l as [|d l0].
  - cbn in P. apply Permutation_sym, Permutation_nil in P. subst. cbn in H. injection H as <-. constructor.
  - set (l := d :: l0) in *. assert (E : r = map (fun i => nth i l d) idx).
    { clear P. revert r H. induction idx as [|i idx IH]; intros r; cbn [np_take map]; [intros [= <-]; reflexivity|].
      destruct (nth_error l i) eqn:E; [|discriminate]. destruct (np_take l idx) as [r0|]; cbn [bind]; [|discriminate]. intros [= <-].
      rewrite (IH r0 eq_refl). f_equal. symmetry. apply nth_error_nth. exact E. }
    rewrite E, (Permutation_map _ P). replace (map (fun i => nth i l d) (seq 0 (length l))) with l; [reflexivity|].
    apply nth_error_ext. intros k. rewrite nth_error_map. destruct (Nat.lt_ge_cases k (length l)) as [Hk|Hk].
    + assert (E2 : nth_error (seq 0 (length l)) k = Some k) by (rewrite (nth_error_nth' _ 0) by (rewrite seq_length; exact Hk); rewrite seq_nth by exact Hk; reflexivity).
      rewrite E2. cbn [option_map]. apply nth_error_nth'. exact Hk.
    + rewrite (proj2 (nth_error_None l k) Hk). replace (nth_error (seq 0 (length l)) k) with (@None nat); [reflexivity|]. symmetry. apply nth_error_None. rewrite seq_length. exact Hk.
Qed.
Lemma filter_perm {A} (f : A -> bool) l l' : Permutation l l' -> Permutation (filter f l) (filter f l').
Proof.
  induction 1; cbn; auto.
  - destruct (f x); auto.
  - destruct (f x), (f y); auto. constructor.
  - eapply Permutation_trans; eauto.
Qed.
(** positions ordered by a relation; kept by a filter *)
Definition ordered {A} (R : A -> A -> Prop) (l : list A) : Prop := forall i j a b, i < j -> nth_error l i = Some a -> nth_error l j = Some b -> R a b.
Lemma ordered_cons {A} (R : A -> A -> Prop) x l : ordered R (x :: l) <-> (forall y, In y l -> R x y) /\ ordered R l.
Proof.
  split.
  - intros H. split.
    + intros y Hy. apply In_nth_error in Hy. destruct Hy as [k Hk]. apply (H 0 (S k) x y); [lia|reflexivity|exact Hk].
    + intros i j a b Hij Ha Hb. apply (H (S i) (S j) a b); [lia|exact Ha|exact Hb].
  - intros [H1 H2] [|i] [|j] a b Hij Ha Hb; try lia.
    + cbn in Ha. injection Ha as <-. apply H1. cbn in Hb. eapply nth_error_In; exact Hb.
    + apply (H2 i j a b); [lia|exact Ha|exact Hb].
Qed.
Lemma ordered_filter {A} (R : A -> A -> Prop) f l : ordered R l -> ordered R (filter f l).
Proof.
  induction l as [|x l IH]; intros H; cbn; [exact H|]. apply ordered_cons in H. destruct H as [H1 H2]. destruct (f x); [|apply IH; exact H2].
  apply ordered_cons. split; [|apply IH; exact H2]. intros y Hy. apply filter_In in Hy. apply H1. apply Hy.
Qed.
Lemma ordered_map {A B} (R : B -> B -> Prop) (f : A -> B) l : ordered R (map f l) <-> ordered (fun a b => R (f a) (f b)) l.
Proof.
  induction l as [|x l IH]; cbn; [split; intros _ [|i] j a b _ H; discriminate H|]. rewrite !ordered_cons, IH.
  split; intros [H1 H2]; (split; [|exact H2]).
  - intros y Hy. apply H1. apply in_map. exact Hy.
  - intros y Hy. apply in_map_iff in Hy. destruct Hy as (z & <- & Hz). apply H1. exact Hz.
Qed.
Lemma ordered_impl {A} (R R' : A -> A -> Prop) l : (forall a b, R a b -> R' a b) -> ordered R l -> ordered R' l.
Proof. intros I H i j a b Hij Ha Hb. apply I. exact (H i j a b Hij Ha Hb). Qed.

Section Setup.
Variable asort : list Q -> list nat.
Hypothesis HA : argsort_spec asort.
Variable c : perc.
Variable cat : list seed.
Definition sel (s : seed) : bool := use_row c s && good_row s && (if p_clean c then s_in s else true).
Lemma sel_iff s : sel s = true <-> usable c s.
Proof.
  unfold sel, usable. rewrite Bool.andb_true_iff, use_good_iff. destruct (p_clean c).
  - split; [intros [(A & B & C & D) E]; auto|intros (A & B & C & D & E); auto].
  - split; [intros [(A & B & C & D) E]; repeat split; auto; discriminate|intros (A & B & C & D & E); auto].
Qed.
Lemma filter_twice : filter good_row (filter (use_row c) cat) = filter (fun s => use_row c s && good_row s) cat.
Proof. induction cat as [|x l IH]; cbn; [reflexivity|]. destruct (use_row c x); cbn; [destruct (good_row x); cbn; rewrite IH; reflexivity|exact IH]. Qed.
Lemma filter_sel l : (if p_clean c then filter s_in (filter (fun s => use_row c s && good_row s) l) else filter (fun s => use_row c s && good_row s) l) = filter sel l.
Proof.
  unfold sel. destruct (p_clean c); [|apply filter_ext; intros s; rewrite Bool.andb_true_r; reflexivity].
  induction l as [|x l IH]; cbn; [reflexivity|]. destruct (use_row c x && good_row x); cbn; [destruct (s_in x); rewrite <- IH; reflexivity|exact IH].
Qed.
(** the rows before the identifiers are made *)
Definition relabel (s : seed) : seed := if p_keepid c then s else anonymous s.
Lemma relabel_in s : s_in (relabel s) = s_in s.
Proof. unfold relabel. destruct (p_keepid c); reflexivity. Qed.
Lemma setup_cases : exists rows, Permutation rows (filter sel cat) /\
  (p_keepid c = true -> ordered (fun a b => (s_id a <= s_id b)%Z) rows) /\
  (p_keepid c = false -> ordered (fun a b => like_key b <= like_key a)%Q rows) /\
  setup asort c cat = (if length rows =? 0 then Ok None else
    do ids <- generate_ids (map s_id (map relabel rows)); Ok (Some (map (fun p => with_id (fst p) (snd p)) (combine (map relabel rows) ids)))).
Proof.
  unfold setup. rewrite filter_twice. set (good := filter (fun s => use_row c s && good_row s) cat).
  set (st := if p_keepid c then asort (map (fun s => inject_Z (s_id s)) good) else desc asort (map like_key good)).
  assert (Pst : Permutation st (seq 0 (length good))).
  { unfold st. destruct (p_keepid c); [rewrite <- (map_length (fun s => inject_Z (s_id s)) good); apply HA|rewrite <- (map_length like_key good); apply desc_perm; exact HA]. }
  destruct (np_take_total good st) as [r Hr].
  { intros i Hi. apply (Permutation_in i Pst) in Hi. apply in_seq in Hi. lia. }
  pose proof (take_perm _ _ _ Hr Pst) as Pr.
  assert (O1 : p_keepid c = true -> ordered (fun a b => (s_id a <= s_id b)%Z) r).
  { intros K i j a b Hij Ha Hb. destruct (np_take_nth_inv _ _ _ _ _ Hr Ha) as (x & X1 & X2). destruct (np_take_nth_inv _ _ _ _ _ Hr Hb) as (y & Y1 & Y2).
    unfold st in X1, Y1. rewrite K in X1, Y1. destruct (HA (map (fun s => inject_Z (s_id s)) good)) as [_ S].
    specialize (S i j x y (inject_Z (s_id a)) (inject_Z (s_id b)) Hij X1 Y1). rewrite !nth_error_map, X2, Y2 in S. specialize (S eq_refl eq_refl).
    rewrite <- Zle_Qle in S. exact S. }
  assert (O2 : p_keepid c = false -> ordered (fun a b => like_key b <= like_key a)%Q r).
  { intros K i j a b Hij Ha Hb. destruct (np_take_nth_inv _ _ _ _ _ Hr Ha) as (x & X1 & X2). destruct (np_take_nth_inv _ _ _ _ _ Hr Hb) as (y & Y1 & Y2).
    unfold st in X1, Y1. rewrite K in X1, Y1.
    apply (desc_sorted asort (map like_key good) i j x y (like_key a) (like_key b) HA Hij X1 Y1); rewrite nth_error_map; [rewrite X2|rewrite Y2]; reflexivity. }
  exists (if p_clean c then filter s_in r else r). split; [|split; [|split]].
  - rewrite <- filter_sel. fold good. destruct (p_clean c); [apply filter_perm|]; exact Pr.
  - intros K. destruct (p_clean c); [apply ordered_filter|]; apply O1, K.
  - intros K. destruct (p_clean c); [apply ordered_filter|]; apply O2, K.
  - destruct (length (filter (use_row c) cat) =? 0) eqn:E0.
    { apply Nat.eqb_eq in E0. assert (U : filter (use_row c) cat = []) by (destruct (filter (use_row c) cat); [reflexivity|discriminate]).
      assert (G : good = []) by (unfold good; rewrite <- filter_twice, U; reflexivity). rewrite G in Pr. apply Permutation_sym, Permutation_nil in Pr. subst r.
      destruct (p_clean c); reflexivity. }
    destruct (length good =? 0) eqn:E1.
    { apply Nat.eqb_eq in E1. assert (G : good = []) by (destruct good; [reflexivity|discriminate]). rewrite G in Pr. apply Permutation_sym, Permutation_nil in Pr. subst r.
      destruct (p_clean c); reflexivity. }
    rewrite Hr. cbn [bind].
    assert (EM : (if p_keepid c then r else map (fun s => with_id s 0) r) = map relabel r).
    { unfold relabel. destruct (p_keepid c); [rewrite map_id; reflexivity|reflexivity]. }
    rewrite EM.
    assert (EF : (if p_clean c then filter s_in (map relabel r) else map relabel r) = map relabel (if p_clean c then filter s_in r else r)).
    { destruct (p_clean c); [|reflexivity]. clear. induction r as [|x r IH]; cbn; [reflexivity|]. rewrite relabel_in. destruct (s_in x); cbn; rewrite IH; reflexivity. }
    rewrite EF, map_length. reflexivity.
Qed.
End Setup.
Lemma anonymous_id s i : anonymous (with_id s i) = anonymous s.
Proof. reflexivity. Qed.
Lemma with_own s : with_id s (s_id s) = s.
Proof. destruct s; reflexivity. Qed.
Lemma combine_ids rows : forall ids, length ids = length rows ->
  map s_id (map (fun p => with_id (fst p) (snd p)) (combine rows ids)) = ids /\
  map anonymous (map (fun p => with_id (fst p) (snd p)) (combine rows ids)) = map anonymous rows.
Proof.
  induction rows as [|x rows IH]; intros [|i ids] H; cbn in *; try discriminate; auto. injection H as H. destruct (IH ids H) as [E1 E2].
  split; f_equal; auto.
Qed.
Lemma combine_own rows : map (fun p => with_id (fst p) (snd p)) (combine rows (map s_id rows)) = rows.
Proof. induction rows as [|x rows IH]; cbn; [reflexivity|]. rewrite with_own, IH. reflexivity. Qed.
