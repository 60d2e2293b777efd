From Coq Require Import Permutation Reals Lra Lia.
From Verif.Base Require Import Py PyLemmas.
From Verif.Model Require Import CalOrder Chisq.
From Verif.Spec Require Import Chisq.
From Verif.Proofs Require Import Chisq.
Local Open Scope R_scope.

Lemma order_colors ref nmag : (ref < nmag)%nat -> Permutation (map t_col (order ref nmag)) (seq 0 (nmag - 1)).
Proof.
  intros H. unfold order. rewrite map_app, !map_map. cbn [t_col].
  assert (S1 : forall a n, map (fun j => (j - 1)%nat) (seq (a + 1) n) = seq a n).
  { intros a n. revert a. induction n as [|n IH]; intros a; cbn; [reflexivity|]. f_equal; [lia|]. rewrite <- (IH (S a)). reflexivity. }
  rewrite S1. rewrite map_rev. change 1%nat with (0 + 1)%nat at 3. rewrite S1.
  rewrite <- Permutation_rev. rewrite Permutation_app_comm.
  replace (nmag - 1)%nat with (ref + (nmag - (ref + 1)))%nat by lia. rewrite seq_app. reflexivity.
Qed.

Section Loop.
  Variables (lup fr : bool) (colour : nat -> R) (fit : nat -> option R -> R) (ref : nat) (refmag : R).

  (** magnitudes *)
  Definition minv (lo hi : nat) (st : cstate) : Prop :=
    exists f, (forall b, (lo <= b <= hi)%nat -> k_mag st b = Some (f b)) /\ f ref = refmag /\
      (forall b, (lo <= b)%nat -> (b < hi)%nat -> f b - f (b + 1)%nat = colour b).
  (** ratios *)
  Definition rinv (lo hi : nat) (st : cstate) : Prop :=
    forall b, ((lo <= b <= hi)%nat -> exists v, k_ratio st b = Some v) /\ (~ (lo <= b <= hi)%nat -> k_ratio st b = None).
  (** one event, with the bands known before it *)
  Definition ev_ok (c lo hi : nat) (e : event) : Prop :=
    if fr then
      (c = 0%nat -> e_scaled e = None /\ e_fit e = [0; 1]%nat /\ e_set e = [e_col e; e_col e + 1]%nat) /\
      (c <> 0%nat -> exists s b, e_scaled e = Some (s, b) /\ (s < 2)%nat /\ b = (e_col e + s)%nat /\ (lo <= b <= hi)%nat /\
         e_fit e = [1 - s]%nat /\ e_set e = [e_col e + (1 - s)]%nat /\ ~ (lo <= e_col e + (1 - s) <= hi)%nat)
    else e_scaled e = None /\ e_fit e = [].

  Lemma step_up c hi lo st : (c = 0%nat -> lo = hi) -> (c <> 0%nat -> (lo < hi)%nat) -> (lo <= ref <= hi)%nat ->
    (lup = true -> minv lo hi st) -> (c = 0%nat -> forall b, k_ratio st b = None) -> (c <> 0%nat -> rinv lo hi st) ->
    exists st' e, do_color lup fr colour fit c {| t_col := hi; t_plus := false; t_band := hi + 1 |} st = Ok (st', e) /\
      e_col e = hi /\ (lup = true -> minv lo (hi + 1) st') /\ rinv lo (hi + 1) st' /\ ev_ok c lo hi e.
  Proof.
    intros Hc0 Hc1 Href Hm Hr0 Hr1. unfold do_color, neighbor, new_mag. cbn [t_col t_plus t_band]. replace (hi + 1 - 1)%nat with hi by lia.
    assert (HM : exists mags, (if lup then do m <- known (k_mag st) hi; Ok (upd (k_mag st) (hi + 1) (m - colour hi)) else Ok (k_mag st)) = Ok mags /\
              (lup = true -> forall rr, minv lo (hi + 1) {| k_mag := mags; k_ratio := rr |})).
    { destruct lup; [|exists (k_mag st); split; [reflexivity|discriminate]].
      destruct (Hm eq_refl) as (f & F1 & F2 & F3). unfold known. rewrite (F1 hi) by lia. cbn [bind]. eexists. split; [reflexivity|].
      intros _ rr. exists (fun b => if Nat.eqb b (hi + 1) then f hi - colour hi else f b). cbn [k_mag]. split; [|split].
      - intros b Hb. unfold upd. destruct (Nat.eqb_spec b (hi + 1)); [reflexivity|]. apply F1. lia.
      - destruct (Nat.eqb_spec ref (hi + 1)); [lia|exact F2].
      - intros b H1 H2. destruct (Nat.eqb_spec b (hi + 1)); [lia|]. destruct (Nat.eqb_spec (b + 1) (hi + 1)).
        + replace b with hi by lia. lra.
        + apply F3; lia. }
    destruct HM as (mags & EM & HM). rewrite EM. cbn [bind]. unfold ev_ok.
    destruct fr.
    - destruct (Nat.eqb_spec c 0) as [->|Hc].
      + do 2 eexists. split; [reflexivity|]. cbn [e_col e_scaled e_fit e_set]. split; [reflexivity|]. split; [intros H; apply HM, H|]. split.
        * specialize (Hc0 eq_refl). subst lo. intros b. cbn [k_ratio]. unfold upd.
          destruct (Nat.eqb_spec b (hi + 1)); [split; [eauto|lia]|]. destruct (Nat.eqb_spec b hi); [split; [eauto|lia]|].
          split; [lia|intros _; apply Hr0; reflexivity].
        * split; [intros _; repeat split|intros H; congruence].
      + unfold known. destruct (Hr1 Hc hi) as [Hk _]. specialize (Hc1 Hc). destruct Hk as (v & Hv); [lia|]. rewrite Hv. cbn [bind].
        do 2 eexists. split; [reflexivity|]. cbn [e_col e_scaled e_fit e_set]. split; [reflexivity|]. split; [intros H; apply HM, H|]. split.
        * intros b. cbn [k_ratio]. unfold upd. destruct (Nat.eqb_spec b (hi + 1)); [split; [eauto|lia]|].
          destruct (Hr1 Hc b) as [A B]. split; [intros; apply A; lia|intros; apply B; lia].
        * split; [intros H; congruence|]. intros _. exists 0%nat, hi. repeat split; lia.
    - do 2 eexists. split; [reflexivity|]. cbn [e_col e_scaled e_fit e_set]. split; [reflexivity|]. split; [intros H; apply HM, H|]. split; [|split; reflexivity].
      intros b. cbn [k_ratio]. unfold upd. destruct (Nat.eqb_spec b (hi + 1)); [split; [eauto|lia]|].
      destruct (Nat.eqb_spec b hi); [split; [eauto|lia]|].
      destruct (Nat.eq_dec c 0) as [Hc|Hc]; [split; [specialize (Hc0 Hc); lia|intros _; apply Hr0, Hc]|].
      destruct (Hr1 Hc b) as [A B]. split; [intros; apply A; lia|intros; apply B; lia].
  Qed.
  Lemma step_down c lo hi st : (1 <= lo)%nat -> (c = 0%nat -> lo = hi) -> (c <> 0%nat -> (lo < hi)%nat) -> (lo <= ref <= hi)%nat ->
    (lup = true -> minv lo hi st) -> (c = 0%nat -> forall b, k_ratio st b = None) -> (c <> 0%nat -> rinv lo hi st) ->
    exists st' e, do_color lup fr colour fit c {| t_col := lo - 1; t_plus := true; t_band := lo - 1 |} st = Ok (st', e) /\
      e_col e = (lo - 1)%nat /\ (lup = true -> minv (lo - 1) hi st') /\ rinv (lo - 1) hi st' /\ ev_ok c lo hi e.
  Proof.
    intros Hlo Hc0 Hc1 Href Hm Hr0 Hr1. unfold do_color, neighbor, new_mag. cbn [t_col t_plus t_band]. replace (lo - 1 + 1)%nat with lo by lia.
    assert (HM : exists mags, (if lup then do m <- known (k_mag st) lo; Ok (upd (k_mag st) (lo - 1) (m + colour (lo - 1)%nat)) else Ok (k_mag st)) = Ok mags /\
              (lup = true -> forall rr, minv (lo - 1) hi {| k_mag := mags; k_ratio := rr |})).
    { destruct lup; [|exists (k_mag st); split; [reflexivity|discriminate]].
      destruct (Hm eq_refl) as (f & F1 & F2 & F3). unfold known. rewrite (F1 lo) by lia. cbn [bind]. eexists. split; [reflexivity|].
      intros _ rr. exists (fun b => if Nat.eqb b (lo - 1) then f lo + colour (lo - 1)%nat else f b). cbn [k_mag]. split; [|split].
      - intros b Hb. unfold upd. destruct (Nat.eqb_spec b (lo - 1)); [reflexivity|]. apply F1. lia.
      - destruct (Nat.eqb_spec ref (lo - 1)); [lia|exact F2].
      - intros b H1 H2. destruct (Nat.eqb_spec (b + 1) (lo - 1)); [lia|]. destruct (Nat.eqb_spec b (lo - 1)).
        + subst b. replace (lo - 1 + 1)%nat with lo by lia. lra.
        + apply F3; lia. }
    destruct HM as (mags & EM & HM). rewrite EM. cbn [bind]. unfold ev_ok.
    destruct fr.
    - destruct (Nat.eqb_spec c 0) as [->|Hc].
      + do 2 eexists. split; [reflexivity|]. cbn [e_col e_scaled e_fit e_set]. split; [reflexivity|]. split; [intros H; apply HM, H|]. split.
        * specialize (Hc0 eq_refl). subst hi. intros b. cbn [k_ratio]. unfold upd.
          destruct (Nat.eqb_spec b (lo)); [split; [eauto|lia]|]. destruct (Nat.eqb_spec b (lo - 1)); [split; [eauto|lia]|].
          split; [lia|intros _; apply Hr0; reflexivity].
        * replace (lo - 1 + 1)%nat with lo by lia. split; [intros _; repeat split|intros H; congruence].
      + unfold known. destruct (Hr1 Hc lo) as [Hk _]. specialize (Hc1 Hc). destruct Hk as (v & Hv); [lia|]. rewrite Hv. cbn [bind].
        do 2 eexists. split; [reflexivity|]. cbn [e_col e_scaled e_fit e_set]. split; [reflexivity|]. split; [intros H; apply HM, H|]. split.
        * intros b. cbn [k_ratio]. unfold upd. destruct (Nat.eqb_spec b (lo - 1)); [split; [eauto|lia]|].
          destruct (Hr1 Hc b) as [A B]. split; [intros; apply A; lia|intros; apply B; lia].
        * split; [intros H; congruence|]. intros _. exists 1%nat, lo. repeat split; try lia. cbn. rewrite Nat.add_0_r. reflexivity.
    - do 2 eexists. split; [reflexivity|]. cbn [e_col e_scaled e_fit e_set]. split; [reflexivity|]. split; [intros H; apply HM, H|]. split; [|split; reflexivity].
      intros b. cbn [k_ratio]. unfold upd. destruct (Nat.eqb_spec b lo); [split; [eauto|lia]|].
      destruct (Nat.eqb_spec b (lo - 1)); [split; [eauto|lia]|].
      destruct (Nat.eq_dec c 0) as [Hc|Hc]; [split; [specialize (Hc0 Hc); lia|intros _; apply Hr0, Hc]|].
      destruct (Hr1 Hc b) as [A B]. split; [intros; apply A; lia|intros; apply B; lia].
  Qed.

  (** known bands before the [i]-th event *)
  Definition span (nmag i : nat) : nat * nat :=
    if (i <=? nmag - 1 - ref)%nat then (ref, ref + i)%nat else (ref - (i - (nmag - 1 - ref)), nmag - 1)%nat.
  Lemma phase2 nmag n : (ref < nmag)%nat -> forall c lo st, (lo = n)%nat -> (lo <= ref)%nat -> c = (nmag - 1 - lo)%nat ->
    (lup = true -> minv lo (nmag - 1) st) -> (c = 0%nat -> forall b, k_ratio st b = None) -> (c <> 0%nat -> rinv lo (nmag - 1) st) ->
    exists st' es, do_colors lup fr colour fit c (map (fun j => {| t_col := j - 1; t_plus := true; t_band := j - 1 |}) (rev (seq 1 n))) st = Ok (st', es) /\
      (lup = true -> minv 0 (nmag - 1) st') /\ (1 < nmag -> rinv 0 (nmag - 1) st')%nat /\ length es = n /\
      (forall i e, nth_error es i = Some e -> e_col e = (lo - 1 - i)%nat /\ ev_ok (c + i) (lo - i) (nmag - 1) e).
  Proof.
    intros Hn. induction n as [|n IH]; intros c lo st Hlo Hle Hc Hm Hr0 Hr1.
    - cbn. exists st, []. subst lo. split; [reflexivity|]. split; [exact Hm|]. split; [intros H; apply Hr1; lia|]. split; [reflexivity|]. intros [|i] e H; discriminate H.
    - rewrite seq_S, rev_app_distr. cbn [rev app map do_colors]. replace (1 + n)%nat with lo by lia.
      destruct (step_down c lo (nmag - 1) st) as (st1 & e & E & Ec & M1 & R1 & Ev); try assumption; try lia.
      rewrite E. cbn [bind fst snd].
      destruct (IH (S c) (lo - 1)%nat st1) as (st' & es & E2 & M2 & R2 & L2 & V2); try assumption; try lia.
      { intros _. exact R1. }
      rewrite E2. cbn [bind fst snd]. exists st', (e :: es). split; [reflexivity|]. split; [exact M2|]. split; [exact R2|]. split; [cbn; lia|].
      intros [|i] e' H; cbn in H.
      + injection H as <-. rewrite Ec. rewrite !Nat.add_0_r. replace (lo - 0)%nat with lo by lia. split; [lia|exact Ev].
      + destruct (V2 i e' H) as [A B]. split; [lia|]. replace (c + S i)%nat with (S c + i)%nat by lia. replace (lo - S i)%nat with (lo - 1 - i)%nat by lia. exact B.
  Qed.
  Lemma do_colors_app l1 l2 c st : do_colors lup fr colour fit c (l1 ++ l2) st =
    (do r <- do_colors lup fr colour fit c l1 st; do r2 <- do_colors lup fr colour fit (c + length l1) l2 (fst r); Ok (fst r2, snd r ++ snd r2)).
  Proof.
    revert c st. induction l1 as [|t l1 IH]; intros c st; cbn [app do_colors length].
    - cbn [bind fst snd]. rewrite Nat.add_0_r. destruct (do_colors lup fr colour fit c l2 st) as [[s e]|]; reflexivity.
    - destruct (do_color lup fr colour fit c t st) as [r|]; [|reflexivity]. cbn [bind]. rewrite IH. replace (S c + length l1)%nat with (c + S (length l1))%nat by lia.
      destruct (do_colors lup fr colour fit (S c) l1 (fst r)) as [r1|]; [|reflexivity]. cbn [bind fst snd].
      destruct (do_colors lup fr colour fit (c + S (length l1)) l2 (fst r1)) as [r2|]; reflexivity.
  Qed.
  Lemma phase1 n : forall c hi st, (ref <= hi)%nat -> c = (hi - ref)%nat ->
    (lup = true -> minv ref hi st) -> (c = 0%nat -> forall b, k_ratio st b = None) -> (c <> 0%nat -> rinv ref hi st) ->
    exists st' es, do_colors lup fr colour fit c (map (fun j => {| t_col := j - 1; t_plus := false; t_band := j |}) (seq (hi + 1) n)) st = Ok (st', es) /\
      (lup = true -> minv ref (hi + n) st') /\ (hi + n = ref -> forall b, k_ratio st' b = None)%nat /\ (hi + n <> ref -> rinv ref (hi + n) st')%nat /\ length es = n /\
      (forall i e, nth_error es i = Some e -> e_col e = (hi + i)%nat /\ ev_ok (c + i) ref (hi + i) e).
  Proof.
    induction n as [|n IH]; intros c hi st Hle Hc Hm Hr0 Hr1.
    - cbn. rewrite Nat.add_0_r. exists st, []. split; [reflexivity|]. split; [exact Hm|]. split; [intros; apply Hr0; lia|]. split; [intros; apply Hr1; lia|]. split; [reflexivity|]. intros [|i] e H; discriminate H.
    - cbn [seq map do_colors]. replace (hi + 1 - 1)%nat with hi by lia.
      destruct (step_up c hi ref st) as (st1 & e & E & Ec & M1 & R1 & Ev); try assumption; try lia.
      rewrite E. cbn [bind fst snd]. replace (S (hi + 1)) with (hi + 1 + 1)%nat by lia.
      destruct (IH (S c) (hi + 1)%nat st1) as (st' & es & E2 & M2 & R0 & R2 & L2 & V2); try assumption; try lia.
      { intros _. exact R1. }
      rewrite E2. cbn [bind fst snd]. replace (hi + S n)%nat with (hi + 1 + n)%nat by lia. exists st', (e :: es). split; [reflexivity|]. split; [exact M2|]. split; [exact R0|]. split; [exact R2|]. split; [cbn; lia|].
      intros [|i] e' H; cbn in H.
      + injection H as <-. rewrite !Nat.add_0_r. split; [exact Ec|exact Ev].
      + destruct (V2 i e' H) as [A B]. split; [lia|]. replace (c + S i)%nat with (S c + i)%nat by lia. replace (hi + S i)%nat with (hi + 1 + i)%nat by lia. exact B.
  Qed.
  Lemma calibrate_ok nmag : (ref < nmag)%nat ->
    exists st es, calibrate_diagonal lup fr colour fit ref nmag refmag = Ok (st, es) /\
      (lup = true -> minv 0 (nmag - 1) st) /\ (1 < nmag -> rinv 0 (nmag - 1) st)%nat /\
      map e_col es = map t_col (order ref nmag) /\
      (forall i e, nth_error es i = Some e -> ev_ok i (fst (span nmag i)) (snd (span nmag i)) e).
  Proof.
    intros Hn. unfold calibrate_diagonal, order. rewrite do_colors_app.
    set (st0 := {| k_mag := fun b => if Nat.eqb b ref then Some refmag else None; k_ratio := fun _ => None |}).
    destruct (phase1 (nmag - (ref + 1)) 0 ref st0) as (st1 & es1 & E1 & M1 & R01 & R1 & L1 & V1); try lia.
    { intros _. exists (fun _ => refmag). split; [|split; [reflexivity|lia]]. intros b Hb. cbn. replace b with ref by lia. rewrite Nat.eqb_refl. reflexivity. }
    { intros _ b. reflexivity. }
    rewrite E1. cbn [bind fst snd]. rewrite map_length, seq_length. replace (ref + (nmag - (ref + 1)))%nat with (nmag - 1)%nat in * by lia.
    destruct (phase2 nmag ref Hn (0 + (nmag - (ref + 1)))%nat ref st1) as (st2 & es2 & E2 & M2 & R2 & L2 & V2); try assumption; try lia.
    { intros H. apply R01. lia. } { intros H. apply R1. lia. }
    rewrite E2. cbn [bind fst snd]. exists st2, (es1 ++ es2). split; [reflexivity|]. split; [exact M2|]. split; [exact R2|]. split.
    - rewrite !map_app, !map_map. cbn [t_col]. f_equal.
      + apply nth_error_ext. intros i. rewrite !nth_error_map. destruct (nth_error es1 i) as [e|] eqn:E.
        * destruct (V1 i e E) as [A _]. assert (Hi : (i < nmag - (ref + 1))%nat) by (rewrite <- L1; apply nth_error_Some; congruence).
          rewrite (nth_error_nth' (seq (ref + 1) (nmag - (ref + 1))) 0%nat) by (rewrite seq_length; exact Hi). rewrite seq_nth by exact Hi. cbn. f_equal. lia.
        * apply nth_error_None in E. rewrite (proj2 (nth_error_None (seq _ _) i)); [reflexivity|]. rewrite seq_length. lia.
      + apply nth_error_ext. intros i. rewrite !nth_error_map. destruct (nth_error es2 i) as [e|] eqn:E.
        * destruct (V2 i e E) as [A _]. assert (Hi : (i < ref)%nat) by (rewrite <- L2; apply nth_error_Some; congruence).
          rewrite (nth_error_nth' (rev (seq 1 ref)) 0%nat) by (rewrite rev_length, seq_length; exact Hi). rewrite rev_nth by (rewrite seq_length; exact Hi). rewrite seq_length, seq_nth by lia. cbn. f_equal. lia.
        * apply nth_error_None in E. rewrite (proj2 (nth_error_None (rev _) i)); [reflexivity|]. rewrite rev_length, seq_length. lia.
    - intros i e H. unfold span. destruct (Nat.lt_ge_cases i (length es1)) as [L|L].
      + rewrite nth_error_app1 in H by exact L. destruct (V1 i e H) as [_ B]. rewrite (proj2 (Nat.leb_le _ _)) by lia. exact B.
      + rewrite nth_error_app2 in H by exact L. destruct (V2 _ e H) as [_ B]. rewrite L1 in *. replace (0 + (nmag - (ref + 1)) + (i - (nmag - (ref + 1))))%nat with i in B by lia.
        destruct (Nat.leb_spec i (nmag - 1 - ref)) as [L'|L']; cbn [fst snd].
        * replace (ref - (i - (nmag - (ref + 1))))%nat with ref in B by lia. replace (ref + i)%nat with (nmag - 1)%nat by lia. exact B.
        * replace (ref - (i - (nmag - 1 - ref)))%nat with (ref - (i - (nmag - (ref + 1))))%nat by lia. exact B.
  Qed.
End Loop.

(** ** covariance *)
Lemma mset2_val m i j v a b : mset2 m i j v a b = if Nat.eqb a i && Nat.eqb b j then v else m a b.
Proof. reflexivity. Qed.
Lemma off_row rho sg j l m a b : (forall k, In k l -> (j < k)%nat) ->
  fold_left (fun m k => let v := rho * sg j * sg k in mset2 (mset2 m j k v) k j v) l m a b =
  if (Nat.eqb a j && existsb (Nat.eqb b) l) || (Nat.eqb b j && existsb (Nat.eqb a) l) then rho * sg j * sg (if Nat.eqb a j then b else a) else m a b.
Proof.
  revert m. induction l as [|k l IH]; intros m Hl; cbn [fold_left existsb].
  - rewrite !andb_false_r. reflexivity.
  - rewrite IH by (intros x Hx; apply Hl; right; exact Hx). cbv zeta. rewrite !mset2_val. pose proof (Hl k (or_introl eq_refl)) as Hk.
    destruct (Nat.eqb_spec a j) as [Ea|Ha]; [subst a|]; (destruct (Nat.eqb_spec b j) as [Eb|Hb]; [subst b|]); cbn [andb orb].
    + (* a = b = j *) destruct (Nat.eqb_spec j k); [lia|]. cbn [orb]. destruct (existsb (Nat.eqb j) l) eqn:E.
      * apply existsb_exists in E. destruct E as (x & Hx & E). apply Nat.eqb_eq in E. specialize (Hl x (or_intror Hx)). lia.
      * reflexivity.
    + rewrite !orb_false_r. destruct (Nat.eqb_spec b k) as [->|Hbk]; cbn [orb andb].
      * destruct (existsb (Nat.eqb k) l); [reflexivity|]. destruct (Nat.eqb_spec j k); [lia|]. cbn. reflexivity.
      * destruct (existsb (Nat.eqb b) l); [reflexivity|]. destruct (Nat.eqb_spec j k); [lia|]. cbn. reflexivity.
    + destruct (Nat.eqb_spec a k) as [->|Hak]; cbn [orb andb].
      * destruct (existsb (Nat.eqb k) l); reflexivity.
      * destruct (existsb (Nat.eqb a) l); [reflexivity|]. destruct (Nat.eqb_spec j k); [lia|]. reflexivity.
    + destruct (Nat.eqb a k); reflexivity.
Qed.
Lemma in_seqb b lo n : existsb (Nat.eqb b) (seq lo n) = (Nat.leb lo b && Nat.ltb b (lo + n))%bool.
Proof.
  destruct (existsb (Nat.eqb b) (seq lo n)) eqn:E.
  - apply existsb_exists in E. destruct E as (x & Hx & E). apply Nat.eqb_eq in E. subst x. apply in_seq in Hx. symmetry. apply andb_true_iff. rewrite Nat.leb_le, Nat.ltb_lt. lia.
  - symmetry. apply not_true_is_false. intros H. apply andb_true_iff in H. rewrite Nat.leb_le, Nat.ltb_lt in H. apply not_true_iff_false in E. apply E. apply existsb_exists. exists b. split; [apply in_seq; lia|apply Nat.eqb_refl].
Qed.
Lemma offdiag_entry ncol rho sg m a b : (a < ncol)%nat -> (b < ncol)%nat ->
  offdiagonal ncol rho sg m a b = if Nat.eqb a b then m a a else rho * sg a * sg b.
Proof.
  intros Ha Hb. unfold offdiagonal.
  assert (G : forall n m, (n <= ncol)%nat -> fold_left (fun m j => fold_left (fun m k =>
      let v := rho * sg j * sg k in mset2 (mset2 m j k v) k j v) (seq (j + 1) (ncol - (j + 1))) m) (seq 0 n) m a b =
      if Nat.eqb a b then m a a else if (Nat.ltb (Nat.min a b) n) then rho * sg (Nat.min a b) * sg (Nat.max a b) else m a b).
  { induction n as [|n IH]; intros m0 Hn.
    - cbn [seq fold_left]. destruct (Nat.eqb_spec a b) as [->|]; reflexivity.
    - rewrite seq_S, fold_left_app. cbn [fold_left]. rewrite Nat.add_0_l. rewrite off_row by (intros k Hk; apply in_seq in Hk; lia).
      rewrite !in_seqb. rewrite IH by lia.
      destruct (Nat.eqb_spec a b) as [->|Hab].
      + replace (Nat.eqb b n && (Nat.leb (n + 1) b && Nat.ltb b (n + 1 + (ncol - (n + 1)))))%bool with false; [reflexivity|].
        symmetry. apply not_true_is_false. intros H. rewrite !andb_true_iff, Nat.eqb_eq, Nat.leb_le in H. lia.
      + destruct (Nat.ltb_spec (Nat.min a b) (S n)) as [L|L].
        * destruct (Nat.eqb_spec a n) as [->|Han].
          { replace (Nat.leb (n + 1) b && Nat.ltb b (n + 1 + (ncol - (n + 1))))%bool with (Nat.leb (n + 1) b) by (destruct (Nat.leb_spec (n + 1) b); [symmetry; apply Nat.ltb_lt; lia|reflexivity]).
            destruct (Nat.leb_spec (n + 1) b) as [L2|L2]; cbn [andb orb].
            - replace (Nat.min n b) with n by lia. replace (Nat.max n b) with b by lia. reflexivity.
            - destruct (Nat.eqb_spec b n); [lia|]. cbn [andb]. rewrite (proj2 (Nat.ltb_lt _ _)) by lia. reflexivity. }
          { cbn [andb orb]. destruct (Nat.eqb_spec b n) as [->|Hbn]; cbn [andb].
            - destruct (Nat.leb_spec (n + 1) a) as [L2|L2]; cbn [andb].
              + rewrite (proj2 (Nat.ltb_lt a _)) by lia. replace (Nat.min a n) with n by lia. replace (Nat.max a n) with a by lia. reflexivity.
              + rewrite (proj2 (Nat.ltb_lt (Nat.min a n) _)) by lia. reflexivity.
            - rewrite (proj2 (Nat.ltb_lt (Nat.min a b) n)) by lia. reflexivity. }
        * destruct (Nat.eqb_spec a n); [lia|]. destruct (Nat.eqb_spec b n); [lia|]. cbn [andb orb]. destruct (Nat.ltb_spec (Nat.min a b) n); [lia|]. reflexivity. }
  rewrite G by lia. destruct (Nat.eqb_spec a b) as [->|Hab]; [reflexivity|]. rewrite (proj2 (Nat.ltb_lt _ _)) by lia.
  destruct (Nat.lt_ge_cases a b); [replace (Nat.min a b) with a by lia; replace (Nat.max a b) with b by lia|replace (Nat.min a b) with b by lia; replace (Nat.max a b) with a by lia]; ring.
Qed.
Lemma sumn_sq_pos n y k : (k < n)%nat -> y k <> 0 -> 0 < sumn n (fun i => y i * y i).
Proof.
  intros Hk Hy. pose proof (sumn_elem n (fun i => y i * y i) k Hk (fun i _ => Rle_0_sqr (y i))) as H. cbn beta in H.
  pose proof (Rlt_0_sqr (y k) Hy) as Hp. unfold Rsqr in Hp. lra.
Qed.
Lemma const_corr_form n rho sg x :
  qform n (offdiagonal n rho sg (diagonal sg)) x =
  (1 - rho) * sumn n (fun i => (sg i * x i) * (sg i * x i)) + rho * (sumn n (fun i => sg i * x i) * sumn n (fun i => sg i * x i)).
Proof.
  assert (E : qform n (offdiagonal n rho sg (diagonal sg)) x =
     qform n (fun i j => (if Nat.eqb i j then (1 - rho) * (sg i * sg i) else 0) + rho * sg i * sg j) x).
  { apply qform_ext; [|reflexivity]. intros i j Hi Hj. rewrite offdiag_entry by assumption. unfold diagonal. rewrite Nat.eqb_refl.
    destruct (Nat.eqb_spec i j) as [->|]; ring. }
  rewrite E, qform_plus. f_equal.
  - unfold qform. rewrite <- sumn_scal. apply sumn_ext. intros i Hi.
    rewrite (sumn_one n _ i Hi); [rewrite Nat.eqb_refl; ring|]. intros j Hj Hne. destruct (Nat.eqb_spec i j); [congruence|ring].
  - unfold qform. rewrite <- sumn_scal_r, <- sumn_scal. apply sumn_ext. intros i Hi.
    assert (E2 : sumn n (fun j => rho * sg i * sg j * x j) = rho * sg i * sumn n (fun j => sg j * x j)).
    { rewrite <- sumn_scal. apply sumn_ext. intros; ring. }
    rewrite E2. ring.
Qed.

(** ** bands written by earlier events *)
Definition before (es : list event) (i : nat) : list nat := concat (map e_set (firstn i es)).
Lemma order_nth ref nmag i col : (ref < nmag)%nat -> nth_error (map t_col (order ref nmag)) i = Some col ->
  (i < nmag - 1)%nat /\ col = (if (i <? nmag - 1 - ref)%nat then (ref + i)%nat else (ref - 1 - (i - (nmag - 1 - ref)))%nat).
Proof.
  intros Hn H.
  assert (Hl : length (map t_col (order ref nmag)) = (nmag - 1)%nat).
  { rewrite (Permutation_length (order_colors ref nmag Hn)). apply seq_length. }
  assert (Hi : (i < nmag - 1)%nat) by (rewrite <- Hl; apply nth_error_Some; congruence).
  split; [exact Hi|]. unfold order in H. rewrite map_app, !map_map in H. cbn [t_col] in H.
  destruct (Nat.ltb_spec i (nmag - 1 - ref)) as [L|L].
  - rewrite nth_error_app1 in H by (rewrite map_length, seq_length; lia). rewrite nth_error_map in H.
    rewrite (nth_error_nth' (seq _ _) 0%nat) in H by (rewrite seq_length; lia). rewrite seq_nth in H by lia. cbn in H. injection H as <-. lia.
  - rewrite nth_error_app2 in H by (rewrite map_length, seq_length; lia). rewrite map_length, seq_length, nth_error_map in H.
    rewrite (nth_error_nth' (rev _) 0%nat) in H by (rewrite rev_length, seq_length; lia). rewrite rev_nth in H by (rewrite seq_length; lia).
    rewrite seq_length, seq_nth in H by lia. cbn in H. injection H as <-. lia.
Qed.
Lemma before_S es i e : nth_error es i = Some e -> before es (S i) = before es i ++ e_set e.
Proof.
  intros H. unfold before.
  assert (E : firstn (S i) es = firstn i es ++ [e]).
  { revert es H. induction i as [|i IH]; intros [|x es] H; cbn in *; try discriminate; [congruence|]. f_equal. apply IH, H. }
  rewrite E, map_app, concat_app. cbn. rewrite app_nil_r. reflexivity.
Qed.
Lemma before_span ref nmag es : (ref < nmag)%nat -> map e_col es = map t_col (order ref nmag) ->
  (forall i e, nth_error es i = Some e -> ev_ok true i (fst (span ref nmag i)) (snd (span ref nmag i)) e) ->
  forall i, (1 <= i <= length es)%nat -> forall b, In b (before es i) <-> (fst (span ref nmag i) <= b <= snd (span ref nmag i))%nat.
Proof.
  intros Hn Hc Hev. induction i as [|i IH]; intros Hi b; [lia|].
  destruct (nth_error es i) as [e|] eqn:Ee; [|apply nth_error_None in Ee; lia].
  rewrite (before_S es i e Ee), in_app_iff.
  assert (Hcol : nth_error (map t_col (order ref nmag)) i = Some (e_col e)) by (rewrite <- Hc, nth_error_map, Ee; reflexivity).
  destruct (order_nth ref nmag i _ Hn Hcol) as [Hi2 Hcv]. pose proof (Hev i e Ee) as HE. unfold ev_ok in HE. destruct HE as [H0 H1].
  destruct (Nat.eq_dec i 0) as [->|Hi0].
  - destruct (H0 eq_refl) as (_ & _ & Hs). rewrite Hs. cbn [before firstn map concat In]. clear IH.
    revert Hcv. unfold span. destruct (Nat.ltb_spec 0 (nmag - 1 - ref)); destruct (Nat.leb_spec 1 (nmag - 1 - ref)); cbn [fst snd]; intros; lia.
  - destruct (H1 Hi0) as (s & bb & _ & Hs2 & Hb & Hbs & _ & Hset & Hnew). rewrite Hset. rewrite (IH ltac:(lia)). cbn [In]. clear IH H0 H1.
    revert Hcv Hbs Hnew. unfold span. destruct (Nat.ltb_spec i (nmag - 1 - ref)); destruct (Nat.leb_spec i (nmag - 1 - ref)); destruct (Nat.leb_spec (S i) (nmag - 1 - ref)); cbn [fst snd]; intros; destruct s as [|[|s]]; try lia; cbn in *; lia.
Qed.
