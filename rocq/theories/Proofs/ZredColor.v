From Coq Require Import Reals Lra Lia Sorting.Sorted.
From Verif.Base Require Import Py PyLemmas.
From Verif.Model Require Import BkgGen ZredColor.
From Verif.Spec Require Import ZredColor.
From Verif.Proofs Require Import BkgGen Solver.
Local Open Scope R_scope.

(** * the integrals are positive linear functionals *)
Lemma trapz_cons z f x y r : trapz z f (x :: y :: r) = (z y - z x) * (f x + f y) / 2 + trapz z f (y :: r).
Proof. reflexivity. Qed.
Lemma trapz_lin z a b f h l : trapz z (fun i => a * f i + b * h i) l = a * trapz z f l + b * trapz z h l.
Proof.
  induction l as [|x [|y r] IH]; [cbn; ring|cbn; ring|].
  rewrite !trapz_cons, IH. field.
Qed.
Lemma rsum_lin a b f h l : rsum (fun i => a * f i + b * h i) l = a * rsum f l + b * rsum h l.
Proof. induction l as [|x r IH]; cbn; [ring|]. unfold rsum in IH. rewrite IH. ring. Qed.
Lemma integ_lin g a b f h l : integ g (fun i => a * f i + b * h i) l = a * integ g f l + b * integ g h l.
Proof. unfold integ. destruct (Nat.leb _ _); [apply trapz_lin|apply rsum_lin]. Qed.
Lemma trapz_ext z f h l : (forall i, In i l -> f i = h i) -> trapz z f l = trapz z h l.
Proof.
  induction l as [|x [|y r] IH]; intros H; [reflexivity|reflexivity|].
  rewrite !trapz_cons, (H x), (H y) by (cbn; tauto). f_equal. apply IH. intros; apply H; right; assumption.
Qed.
Lemma rsum_ext f h l : (forall i, In i l -> f i = h i) -> rsum f l = rsum h l.
Proof.
  induction l as [|x r IH]; intros H; cbn; [reflexivity|]. rewrite (H x) by (left; reflexivity).
  f_equal. apply IH. intros; apply H; right; assumption.
Qed.
Lemma integ_ext g f h l : (forall i, In i l -> f i = h i) -> integ g f l = integ g h l.
Proof. intros H. unfold integ. destruct (Nat.leb _ _); [apply trapz_ext, H|apply rsum_ext, H]. Qed.
Lemma trapz_nonneg z f l : incl_sorted z l -> (forall i, In i l -> 0 <= f i) -> 0 <= trapz z f l.
Proof.
  induction l as [|x [|y r] IH]; intros Hs H; [cbn; lra|cbn; lra|].
  rewrite trapz_cons. apply StronglySorted_inv in Hs as [Hs Hx]. specialize (IH Hs ltac:(intros; apply H; right; assumption)).
  inversion Hx; subst. pose proof (H x ltac:(left; reflexivity)). pose proof (H y ltac:(right; left; reflexivity)).
  assert (0 <= (z y - z x) * (f x + f y)) by (apply Rmult_le_pos; lra). lra.
Qed.
Lemma rsum_nonneg f l : (forall i, In i l -> 0 <= f i) -> 0 <= rsum f l.
Proof.
  induction l as [|x r IH]; intros H; cbn; [lra|]. pose proof (H x (or_introl eq_refl)).
  specialize (IH (fun i Hi => H i (or_intror Hi))). unfold rsum in IH. lra.
Qed.
Lemma integ_nonneg g f l : incl_sorted (zg_z g) l -> (forall i, In i l -> 0 <= f i) -> 0 <= integ g f l.
Proof. intros Hs H. unfold integ. destruct (Nat.leb _ _); [apply trapz_nonneg; assumption|apply rsum_nonneg, H]. Qed.

Lemma trapz_pos z f l i : incl_sorted z l -> (2 <= length l)%nat -> (forall i, In i l -> 0 <= f i) ->
  In i l -> 0 < f i -> 0 < trapz z f l.
Proof.
  induction l as [|x [|y r] IH]; intros Hs Hl H Hi Hp; [cbn in Hl; lia|cbn in Hl; lia|].
  rewrite trapz_cons. apply StronglySorted_inv in Hs as [Hs Hx].
  assert (Ht : 0 <= trapz z f (y :: r)) by (apply trapz_nonneg; [exact Hs|intros; apply H; right; assumption]).
  inversion Hx; subst. pose proof (H x ltac:(left; reflexivity)). pose proof (H y ltac:(right; left; reflexivity)).
  assert (Hd : 0 < z y - z x) by lra.
  destruct (Rlt_le_dec 0 (f x + f y)) as [Hxy|Hxy].
  - assert (0 < (z y - z x) * (f x + f y)) by (apply Rmult_lt_0_compat; lra). lra.
  - assert (f x = 0) by lra. assert (f y = 0) by lra.
    destruct Hi as [->|Hi]; [lra|].
    destruct r as [|w r]; [destruct Hi as [->|[]]; lra|].
    specialize (IH Hs ltac:(cbn; lia) ltac:(intros; apply H; right; assumption) Hi Hp).
    rewrite H4, H5. lra.
Qed.
Lemma rsum_pos f l i : (forall i, In i l -> 0 <= f i) -> In i l -> 0 < f i -> 0 < rsum f l.
Proof.
  induction l as [|x r IH]; intros H Hi Hp; [destruct Hi|]. cbn.
  pose proof (H x (or_introl eq_refl)). pose proof (rsum_nonneg f r (fun i Hi => H i (or_intror Hi))) as Hr. unfold rsum in Hr.
  destruct Hi as [->|Hi]; [lra|]. specialize (IH (fun i Hi => H i (or_intror Hi)) Hi Hp). unfold rsum in IH. lra.
Qed.
Lemma integ_pos g f l i : incl_sorted (zg_z g) l -> (forall i, In i l -> 0 <= f i) -> In i l -> 0 < f i -> 0 < integ g f l.
Proof.
  intros Hs H Hi Hp. unfold integ. destruct (Nat.leb_spec 3 (length l)).
  - apply (trapz_pos _ _ _ i); try assumption. lia.
  - apply (rsum_pos _ _ i); assumption.
Qed.

(** * mean and spread *)
Section Moments.
  Variable (g : zgrid) (d : nat -> R) (l : list nat).
  Hypothesis Hs : incl_sorted (zg_z g) l.
  Hypothesis Hp : forall i, In i l -> 0 < d i.
  Hypothesis Hne : l <> [].
  Lemma m0_pos : 0 < integ g d l.
  Proof.
    destruct l as [|a r] eqn:E; [contradiction|].
    apply (integ_pos g d (a :: r) a Hs); [intros i Hi; apply Rlt_le, Hp, Hi|left; reflexivity|apply Hp; left; reflexivity].
  Qed.
  Lemma mean_ge lo : (forall i, In i l -> lo <= zg_z g i) -> lo <= zmean g d l.
  Proof.
    intros H. unfold zmean. pose proof m0_pos.
    assert (0 <= integ g (fun i => 1 * (d i * zg_z g i) + (- lo) * d i) l).
    { apply integ_nonneg; [exact Hs|]. intros i Hi. specialize (H i Hi). specialize (Hp i Hi). nra. }
    rewrite integ_lin in H1. apply Rmult_le_reg_r with (integ g d l); [assumption|].
    unfold Rdiv. rewrite Rmult_assoc, Rinv_l by lra. lra.
  Qed.
  Lemma mean_le hi : (forall i, In i l -> zg_z g i <= hi) -> zmean g d l <= hi.
  Proof.
    intros H. unfold zmean. pose proof m0_pos.
    assert (0 <= integ g (fun i => hi * d i + (- 1) * (d i * zg_z g i)) l).
    { apply integ_nonneg; [exact Hs|]. intros i Hi. specialize (H i Hi). specialize (Hp i Hi). nra. }
    rewrite integ_lin in H1. apply Rmult_le_reg_r with (integ g d l); [assumption|].
    unfold Rdiv. rewrite Rmult_assoc, Rinv_l by lra. lra.
  Qed.
  Lemma var_nonneg : 0 <= integ g (fun i => d i * (zg_z g i * zg_z g i)) l / integ g d l - zmean g d l * zmean g d l.
  Proof.
    pose proof m0_pos as H0. set (m := zmean g d l).
    assert (H1 : integ g (fun i => d i * zg_z g i) l = m * integ g d l) by (unfold m, zmean; field; lra).
    assert (H2 : 0 <= integ g (fun i => 1 * (d i * (zg_z g i * zg_z g i)) + 1 * (((-2) * m) * (d i * zg_z g i) + (m * m) * d i)) l).
    { apply integ_nonneg; [exact Hs|]. intros i Hi. specialize (Hp i Hi).
      replace (1 * (d i * (zg_z g i * zg_z g i)) + 1 * (-2 * m * (d i * zg_z g i) + m * m * d i))
        with (d i * ((zg_z g i - m) * (zg_z g i - m))) by ring.
      apply Rmult_le_pos; [lra|apply Rle_0_sqr]. }
    rewrite integ_lin, integ_lin, H1 in H2.
    apply Rmult_le_reg_r with (integ g d l); [assumption|].
    rewrite Rmult_0_l. unfold Rdiv. rewrite Rmult_minus_distr_r, Rmult_assoc, Rinv_l by lra. lra.
  Qed.
  Lemma zerr_ge : 5/1000 <= zerr g d l.
  Proof. unfold zerr. destruct (Rltb (5/1000) _) eqn:E; [apply Rltb_iff in E; lra|lra]. Qed.
  Lemma zerr_val : zerr g d l = Rmax (5/1000)
     (sqrt (integ g (fun i => d i * (zg_z g i * zg_z g i)) l / integ g d l - zmean g d l * zmean g d l)).
  Proof.
    unfold zerr. pose proof var_nonneg as H. cbv zeta. rewrite (proj2 (Rltb_false _ 0) H).
    destruct (Rltb (5/1000) _) eqn:E; [apply Rltb_iff in E; rewrite Rmax_right; lra|].
    apply Rltb_false in E. rewrite Rmax_left; lra.
  Qed.
End Moments.

(** * bins *)
Lemma mem_iff l i : mem l i = true <-> In i l.
Proof.
  unfold mem. rewrite existsb_exists. split.
  - intros (j & Hj & E). apply Nat.eqb_eq in E. subst. exact Hj.
  - intros H. exists i. split; [exact H|apply Nat.eqb_refl].
Qed.
Lemma filter_seq_sorted f a n : StronglySorted lt (filter f (seq a n)).
Proof.
  revert a. induction n as [|n IH]; intros a; cbn; [constructor|].
  destruct (f a); [|apply IH]. constructor; [apply IH|]. apply Forall_forall. intros x Hx.
  apply filter_In in Hx as [Hx _]. apply in_seq in Hx. lia.
Qed.
Lemma sorted_hd_last (l : list nat) : StronglySorted lt l -> (2 <= length l)%nat -> (hd O l < last l O)%nat.
Proof.
  destruct l as [|a [|b r]]; cbn [length]; intros H Hl; try lia.
  apply StronglySorted_inv in H as [_ Hf]. cbn [hd]. rewrite Forall_forall in Hf. apply Hf.
  change (last (a :: b :: r) O) with (last (b :: r) O). destruct (@exists_last _ (b :: r)) as (q & w & E); [discriminate|].
  rewrite E, last_last. apply in_or_app. right. left. reflexivity.
Qed.
Lemma last_In (l : list nat) : l <> [] -> In (last l O) l.
Proof. intros H. destruct (exists_last H) as (q & w & ->). rewrite last_last. apply in_or_app. right. left. reflexivity. Qed.

Lemma sorted_le_last (l : list nat) i : StronglySorted lt l -> In i l -> (i <= last l O)%nat.
Proof.
  induction l as [|a r IH]; intros Hs Hi; [destruct Hi|].
  apply StronglySorted_inv in Hs as [Hs Hf]. rewrite Forall_forall in Hf.
  destruct r as [|b r]; [destruct Hi as [->|[]]; cbn; lia|].
  change (last (a :: b :: r) O) with (last (b :: r) O).
  destruct Hi as [<-|Hi]; [|apply IH; assumption].
  pose proof (Hf _ (last_In (b :: r) ltac:(discriminate))). lia.
Qed.

Lemma limited_lt g mag i : overflow g -> In i (limited g mag) -> (i < zg_n g)%nat.
Proof.
  intros Ho Hi. apply filter_In in Hi as [Hi Hb]. apply in_seq in Hi.
  apply andb_prop in Hb as [_ Hz]. apply Rltb_iff in Hz. unfold overflow in Ho.
  destruct (Nat.eq_dec i (zg_n g)) as [->|]; [lra|lia].
Qed.
Lemma zbins_In g lim i : In i (zbins g lim) <-> (hd O lim - 10 <= i < Nat.min (last lim O + 10) (zg_n g))%nat.
Proof. unfold zbins. rewrite in_seq. lia. Qed.
Lemma limited_ends g mag i : In i (limited g mag) -> (hd O (limited g mag) <= i <= last (limited g mag) O)%nat.
Proof.
  intros Hi. pose proof (filter_seq_sorted (fun i => Rltb mag (zg_max g i) && Rltb (zg_min g i) mag && Rltb (zg_z g i) 100) 0 (zg_n g + 1)) as Hs.
  fold (limited g mag) in Hs. destruct (limited g mag) as [|a r] eqn:E; [destruct Hi|]. cbn [hd].
  split.
  - destruct Hi as [->|Hi]; [lia|]. apply StronglySorted_inv in Hs as [_ Hf]. rewrite Forall_forall in Hf. specialize (Hf i Hi). lia.
  - apply (sorted_le_last (a :: r) i Hs Hi).
Qed.
Lemma zbins_two g mag : overflow g -> (2 <= length (limited g mag))%nat ->
  (2 <= length (zbins g (limited g mag)))%nat /\
  (forall i, In i (zbins g (limited g mag)) -> (i < zg_n g)%nat) /\
  (forall i, In i (limited g mag) -> In i (zbins g (limited g mag))).
Proof.
  intros Ho Hl. pose proof (filter_seq_sorted (fun i => Rltb mag (zg_max g i) && Rltb (zg_min g i) mag && Rltb (zg_z g i) 100) 0 (zg_n g + 1)) as Hs.
  fold (limited g mag) in Hs. pose proof (sorted_hd_last _ Hs Hl) as Hhl.
  assert (Hla : (last (limited g mag) O < zg_n g)%nat).
  { apply (limited_lt g mag); [exact Ho|]. apply last_In. destruct (limited g mag); [cbn in Hl; lia|discriminate]. }
  repeat split.
  - unfold zbins. rewrite seq_length. lia.
  - intros i Hi. apply zbins_In in Hi. lia.
  - intros i Hi. apply zbins_In. pose proof (limited_lt g mag i Ho Hi).
    assert (hd O (limited g mag) <= i <= last (limited g mag) O)%nat; [|lia].
    destruct (limited g mag) as [|a r] eqn:E; [destruct Hi|]. cbn [hd].
    split.
    + destruct Hi as [->|Hi]; [lia|]. apply StronglySorted_inv in Hs as [_ Hf]. rewrite Forall_forall in Hf. specialize (Hf i Hi). lia.
    + apply (sorted_le_last (a :: r) i Hs Hi).
Qed.

(** * the density *)
Lemma rmax_from (f : nat -> R) (l : list nat) : forall a, let m := fold_left (fun m i => if Rltb m (f i) then f i else m) l a in
  a <= m /\ (forall i, In i l -> f i <= m) /\ (m = a \/ exists i, In i l /\ m = f i).
Proof.
  induction l as [|x r IH]; intros a; cbn zeta; cbn [fold_left].
  - repeat split; [lra|intros i []|left; reflexivity].
  - destruct (IH (if Rltb a (f x) then f x else a)) as (H1 & H2 & H3). cbn zeta in *.
    destruct (Rltb a (f x)) eqn:E.
    + apply Rltb_iff in E. repeat split; [lra| |].
      * intros i [<-|Hi]; [exact H1|apply H2, Hi].
      * right. destruct H3 as [H3|(i & Hi & H3)]; [exists x; split; [left; reflexivity|exact H3]|exists i; split; [right; exact Hi|exact H3]].
    + apply Rltb_false in E. repeat split; [exact H1| |].
      * intros i [<-|Hi]; [lra|apply H2, Hi].
      * destruct H3 as [H3|(i & Hi & H3)]; [left; exact H3|right; exists i; split; [right; exact Hi|exact H3]].
Qed.
Lemma rmax_spec f l : l <> [] -> (forall i, In i l -> f i <= rmax f l) /\ exists i, In i l /\ rmax f l = f i.
Proof.
  destruct l as [|a r]; [contradiction|]. intros _. unfold rmax.
  destruct (rmax_from f r (f a)) as (H1 & H2 & H3). cbn zeta in *. split.
  - intros i [<-|Hi]; [exact H1|apply H2, Hi].
  - destruct H3 as [H3|(i & Hi & H3)]; [exists a; split; [left; reflexivity|exact H3]|exists i; split; [right; exact Hi|exact H3]].
Qed.

Lemma calc_In g d i : In i (calcinds g d) <-> (i < zg_n g)%nat /\ 1/100000 < d i.
Proof.
  unfold calcinds. rewrite filter_In, in_seq, Rltb_iff. split; intros [? ?]; split; try assumption; lia.
Qed.
Lemma exp_lt_iff x y : exp x < exp y <-> x < y.
Proof. split; [apply exp_lt_inv|apply exp_increasing]. Qed.
Lemma calc_weighty g mag lnd i : (2 <= length (limited g mag))%nat -> overflow g ->
  In i (calcinds g (dist (zbins g (limited g mag)) lnd)) <-> weighty g mag lnd i.
Proof.
  intros Hl Ho. destruct (zbins_two g mag Ho Hl) as (H2 & Hlt & _).
  set (bins := zbins g (limited g mag)) in *.
  assert (Hne : bins <> []) by (destruct bins; [cbn in H2; lia|discriminate]).
  destruct (rmax_spec lnd bins Hne) as (Hmx & j & Hj & Ej).
  rewrite calc_In. unfold dist, weighty. fold bins.
  destruct (mem bins i) eqn:Em.
  - apply mem_iff in Em.
    assert (Hx : 1/100000 < exp (lnd i - rmax lnd bins) <-> forall m, In m bins -> ln (1/100000) < lnd i - lnd m).
    { rewrite <- (exp_ln (1/100000)) at 1 by lra. rewrite exp_lt_iff. split.
      - intros H m Hm. specialize (Hmx m Hm). lra.
      - intros H. rewrite Ej. apply H, Hj. }
    rewrite Hx. tauto.
  - split; [intros [_ H]; lra|]. intros (_ & H & _). apply mem_iff in H. congruence.
Qed.
Lemma calc_nonempty g mag lnd : (2 <= length (limited g mag))%nat -> overflow g ->
  calcinds g (dist (zbins g (limited g mag)) lnd) <> [].
Proof.
  intros Hl Ho. destruct (zbins_two g mag Ho Hl) as (H2 & Hlt & _).
  set (bins := zbins g (limited g mag)) in *.
  assert (Hne : bins <> []) by (destruct bins; [cbn in H2; lia|discriminate]).
  destruct (rmax_spec lnd bins Hne) as (Hmx & j & Hj & Ej).
  assert (Hin : In j (calcinds g (dist bins lnd))).
  { apply calc_In. split; [apply Hlt, Hj|]. unfold dist. rewrite (proj2 (mem_iff bins j) Hj), Ej.
    replace (lnd j - lnd j) with 0 by ring. rewrite exp_0. lra. }
  intros E. rewrite E in Hin. destruct Hin.
Qed.
Lemma calc_sorted g d : increasing g -> incl_sorted (zg_z g) (calcinds g d).
Proof.
  intros Hg. unfold incl_sorted, calcinds.
  assert (H : forall a n, (a + n <= zg_n g)%nat -> StronglySorted (fun i j => zg_z g i < zg_z g j)
     (filter (fun i => Rltb (1/100000) (d i)) (seq a n))).
  { intros a n. revert a. induction n as [|n IH]; intros a Ha; cbn; [constructor|].
    destruct (Rltb _ _); [|apply IH; lia]. constructor; [apply IH; lia|]. apply Forall_forall. intros x Hx.
    apply filter_In in Hx as [Hx _]. apply in_seq in Hx. apply Hg. lia. }
  apply H. lia.
Qed.
Lemma dist_nonneg bins lnd i : 0 <= dist bins lnd i.
Proof. unfold dist. destruct (mem bins i); [apply Rlt_le, exp_pos|lra]. Qed.

Lemma lkhd_none g ln calc z ze : incl_sorted (zg_z g) calc ->
  (lkhd g ln calc z ze = None <-> forall i, In i calc -> ln i < -10000000000).
Proof.
  intros Hs. unfold lkhd.
  set (nd := fun i => if Rltb (ln i) (-10000000000) then 0 else exp (- (1/2) * ((zg_z g i - z) / ze) * ((zg_z g i - z) / ze))).
  assert (Hn : forall i, 0 <= nd i) by (intros i; unfold nd; destruct (Rltb _ _); [lra|apply Rlt_le, exp_pos]).
  cbv zeta. destruct (Req_EM_T (integ g nd calc) 0) as [E|E]; split; try discriminate; try reflexivity.
  - intros _ i Hi. destruct (Rlt_le_dec (ln i) (-10000000000)) as [H|H]; [exact H|]. exfalso.
    assert (0 < nd i) by (unfold nd; rewrite (proj2 (Rltb_false _ _) H); apply exp_pos).
    pose proof (integ_pos g nd calc i Hs (fun i _ => Hn i) Hi H0). lra.
  - intros H. exfalso. apply E.
    rewrite (integ_ext g nd (fun i => 0 * nd i + 0 * nd i)); [rewrite integ_lin; ring|].
    intros i Hi. unfold nd. rewrite (proj2 (Rltb_iff _ _) (H i Hi)). ring.
Qed.

Lemma refine_near P w zm ze : 0 < ze -> Rabs (refine P w zm ze - zm) < 2 * ze.
Proof.
  intros H. unfold refine. assert (Hz : Rabs (zm - zm) < 2 * ze) by (rewrite Rminus_diag_eq, Rabs_R0 by reflexivity; lra).
  destruct w as [l|]; [|exact Hz]. destruct (P l) as [[a b] c]. destruct (Rltb a 0); [|exact Hz].
  destruct (Rltb (Rabs _) _) eqn:E; [apply Rltb_iff in E; exact E|exact Hz].
Qed.

Lemma uncorrected_none g P mag lnd chisq : increasing g -> overflow g -> zg_good g <> [] ->
  (uncorrected g P mag lnd chisq = Ok None <-> hopeless g mag lnd) /\ (forall e, uncorrected g P mag lnd chisq <> Err e).
Proof.
  intros Hi Ho Hg. unfold uncorrected. destruct (Nat.ltb_spec (length (limited g mag)) 2) as [Hl|Hl].
  - split; [|discriminate]. split; [intros _; left; exact Hl|reflexivity].
  - unfold peak. destruct (zg_good g) as [|a r]; [contradiction|]. cbn [bind]. cbv zeta.
    set (bins := zbins g (limited g mag)). set (calc := calcinds g (dist bins lnd)).
    destruct (lkhd g (lndist bins lnd) calc _ _) as [lk|] eqn:E.
    + split; [|discriminate]. split; [discriminate|]. intros [H|H]; [lia|]. exfalso.
      assert (En : lkhd g (lndist bins lnd) calc (refine P (window g (lndist bins lnd) (argmax_from (dist bins lnd) a r)) (zmean g (dist bins lnd) calc) (zerr g (dist bins lnd) calc)) (zerr g (dist bins lnd) calc) = None).
      { apply lkhd_none; [apply calc_sorted, Hi|]. intros i Hc.
        pose proof (proj1 (calc_weighty g mag lnd i Hl Ho) Hc) as Hw. specialize (H i Hw).
        unfold lndist. destruct Hw as (_ & Hb & _). rewrite (proj2 (mem_iff bins i) Hb). exact H. }
      congruence.
    + split; [|discriminate]. split; [|reflexivity]. intros _. right. intros i Hw.
      pose proof (proj1 (lkhd_none _ _ _ _ _ (calc_sorted g (dist bins lnd) Hi)) E) as E2. clear E. rename E2 into E.
      specialize (E i (proj2 (calc_weighty g mag lnd i Hl Ho) Hw)).
      unfold lndist in E. destruct Hw as (_ & Hb & _). rewrite (proj2 (mem_iff bins i) Hb) in E. exact E.
Qed.

Lemma uncorrected_some g P mag lnd chisq o : increasing g -> overflow g ->
  uncorrected g P mag lnd chisq = Ok (Some o) ->
  5/1000 <= o_unc_e o /\ o_zred o = o_unc o /\ o_zred_e o = o_unc_e o /\ o_zred2 o = o_unc o /\ o_zred2_e o = o_unc_e o /\
  (exists zm, Rabs (o_unc o - zm) < 2 * o_unc_e o /\
     (forall lo, (forall i, weighty g mag lnd i -> lo <= zg_z g i) -> lo <= zm) /\
     (forall hi, (forall i, weighty g mag lnd i -> zg_z g i <= hi) -> zm <= hi)).
Proof.
  intros Hi Ho H. unfold uncorrected in H. destruct (Nat.ltb_spec (length (limited g mag)) 2) as [Hl|Hl]; [discriminate|].
  destruct (peak _ _) as [ind|]; [|discriminate]. cbn [bind] in H. cbv zeta in H.
  set (bins := zbins g (limited g mag)) in *. set (calc := calcinds g (dist bins lnd)) in *.
  destruct (lkhd g (lndist bins lnd) calc _ _) as [lk|] eqn:E; [|discriminate].
  injection H as <-. cbn.
  assert (He : 5/1000 <= zerr g (dist bins lnd) calc) by apply zerr_ge.
  repeat split; [exact He|]. exists (zmean g (dist bins lnd) calc). split; [apply refine_near; lra|].
  assert (Hs : incl_sorted (zg_z g) calc) by apply calc_sorted, Hi.
  assert (Hp : forall i, In i calc -> 0 < dist bins lnd i) by (intros i Hc; apply calc_In in Hc; lra).
  assert (Hne : calc <> []) by apply (calc_nonempty g mag lnd Hl Ho).
  split; [intros lo Hlo; apply mean_ge|intros hi Hhi; apply mean_le]; try assumption;
    intros i Hc; [apply Hlo|apply Hhi]; apply (calc_weighty g mag lnd i Hl Ho), Hc.
Qed.

(** * corrections *)
Lemma step_map k mag z d : dz_step k mag z (k_pivot k z) d = corr_map k mag z d.
Proof. reflexivity. Qed.
Lemma bulk_iter n k mag z d : dz_bulk n k mag z (k_pivot k z) d = iter n (corr_map k mag z) d.
Proof. revert d. induction n as [|n IH]; intros d; cbn; [reflexivity|]. rewrite IH. reflexivity. Qed.
Lemma iter_S {A} n (f : A -> A) x : iter (S n) f x = f (iter n f x).
Proof. revert x. induction n as [|n IH]; intros x; [reflexivity|]. cbn in *. rewrite IH. reflexivity. Qed.
Lemma loop_iter fuel k mag z : forall old d, exists n, (n <= fuel)%nat /\
  dz_loop fuel k mag z (k_pivot k z) old d = iter n (corr_map k mag z) d /\
  (forall j, (j < n)%nat -> 1/1000 < Rabs ((match j with O => old | S i => iter i (corr_map k mag z) d end) - iter j (corr_map k mag z) d)) /\
  (n = fuel \/ Rabs ((match n with O => old | S i => iter i (corr_map k mag z) d end) - iter n (corr_map k mag z) d) <= 1/1000).
Proof.
  induction fuel as [|f IH]; intros old d.
  - exists O. repeat split; [lia|intros j Hj; lia|left; reflexivity].
  - cbn [dz_loop]. destruct (Rltb (1/1000) (Rabs (old - d))) eqn:E.
    + apply Rltb_iff in E. destruct (IH d (corr_map k mag z d)) as (n & Hn & H1 & H2 & H3).
      exists (S n). rewrite step_map. repeat split; [lia|exact H1| |].
      * intros [|j] Hj; [exact E|]. specialize (H2 j ltac:(lia)). destruct j; exact H2.
      * destruct H3 as [->|H3]; [left; reflexivity|right]. destruct n; exact H3.
    + apply Rltb_false in E. exists O. repeat split; [lia|intros j Hj; lia|right; exact E].
Qed.

Lemma iter_const (f : R -> R) c : (forall d, f d = c) -> forall n d, (0 < n)%nat -> iter n f d = c.
Proof. intros H n d Hn. destruct n as [|n]; [lia|]. rewrite iter_S. apply H. Qed.

Section Contract.
  Variable (F : R -> R).
  Hypothesis HF : forall a b, Rabs (F a - F b) <= Rabs (a - b) / 2.
  Let x n := iter n F 0.
  Lemma step_shrink n : Rabs (x (S (S n)) - x (S n)) <= Rabs (x (S n) - x n) / 2.
  Proof. unfold x. rewrite (iter_S (S n)), (iter_S n). apply HF. Qed.
  Lemma step_pow n : Rabs (x (S n) - x n) <= Rabs (F 0) / 2 ^ n.
  Proof.
    induction n as [|n IH].
    - unfold x. cbn. unfold Rdiv. rewrite Rinv_1, Rminus_0_r. lra.
    - pose proof (step_shrink n). cbn [pow].
      replace (Rabs (F 0) / (2 * 2 ^ n)) with (Rabs (F 0) / 2 ^ n / 2) by (field; apply pow_nonzero; lra). lra.
  Qed.
  (* from a small step on, everything stays close *)
  Lemma tail n m : Rabs (x (S (n + m)) - x (S n)) <= Rabs (x (S n) - x n) * (1 - / 2 ^ m).
  Proof.
    assert (Hstep : forall j, Rabs (x (S (n + j)) - x (n + j)%nat) <= Rabs (x (S n) - x n) / 2 ^ j).
    { intros j. induction j as [|j IH].
      - rewrite Nat.add_0_r. cbn. lra.
      - rewrite Nat.add_succ_r. pose proof (step_shrink (n + j)). cbn [pow].
        replace (Rabs (x (S n) - x n) / (2 * 2 ^ j)) with (Rabs (x (S n) - x n) / 2 ^ j / 2) by (field; apply pow_nonzero; lra). lra. }
    induction m as [|m IH].
    - rewrite Nat.add_0_r. cbn. rewrite Rminus_diag_eq, Rabs_R0 by reflexivity. lra.
    - rewrite Nat.add_succ_r. pose proof (Hstep (S m)) as Hm. rewrite Nat.add_succ_r in Hm.
      pose proof (Rabs_triang (x (S (S (n + m))) - x (S (n + m))) (x (S (n + m)) - x (S n))) as Ht.
      replace (x (S (S (n + m))) - x (S (n + m)) + (x (S (n + m)) - x (S n))) with (x (S (S (n + m))) - x (S n)) in Ht by ring.
      cbn [pow] in *. assert (0 < 2 ^ m) by (apply pow_lt; lra).
      replace (Rabs (x (S n) - x n) * (1 - / (2 * 2 ^ m)))
        with (Rabs (x (S n) - x n) * (1 - / 2 ^ m) + Rabs (x (S n) - x n) / (2 * 2 ^ m)) by (field; lra).
      lra.
  Qed.
  Lemma close_after n m : Rabs (x (S n) - x n) <= 1/1000 -> (S n <= m)%nat -> Rabs (x m - x (S n)) <= 1/1000.
  Proof.
    intros H Hm. replace m with (S (n + (m - S n)))%nat by lia.
    pose proof (tail n (m - S n)) as Ht.
    assert (0 < / 2 ^ (m - S n)) by (apply Rinv_0_lt_compat, pow_lt; lra).
    pose proof (Rabs_pos (x (S n) - x n)). nra.
  Qed.
End Contract.

Lemma loop_bulk_close k mag z : (forall a b, Rabs (corr_map k mag z a - corr_map k mag z b) <= Rabs (a - b) / 2) ->
  Rabs (corr_map k mag z 0) <= 16/1000 ->
  Rabs (dz_loop 10 k mag z (k_pivot k z) (-1) 0 - dz_bulk 5 k mag z (k_pivot k z) 0) <= 1/1000.
Proof.
  intros HF H0. rewrite bulk_iter. destruct (loop_iter 10 k mag z (-1) 0) as (n & Hn & -> & Hbig & Hend).
  set (F := corr_map k mag z) in *.
  assert (Hn5 : (n <= 5)%nat).
  { destruct (Nat.le_gt_cases n 5) as [|Hgt]; [assumption|]. exfalso.
    specialize (Hbig 5%nat Hgt). cbn -[iter] in Hbig. pose proof (step_pow F HF 4) as Hs.
    rewrite Rabs_minus_sym in Hbig. change (2 ^ 4) with (2 * (2 * (2 * (2 * 1)))) in Hs. lra. }
  destruct Hend as [->|Hend]; [lia|].
  destruct n as [|n].
  - cbn in Hend. exfalso. rewrite Rabs_left in Hend by lra. lra.
  - rewrite Rabs_minus_sym. rewrite Rabs_minus_sym in Hend. apply (close_after F HF n 5 Hend). lia.
Qed.

(** * the window of the parabola *)
Lemma window_ok g ln ind l : window g ln ind = Some l ->
  (length l = 5%nat \/ length l = 6%nat) /\
  forall i, In i l -> (i < zg_n g)%nat /\
    exists a b, (a <= i <= b)%nat /\ -10000000000 < ln a /\ -10000000000 < ln b.
Proof.
  unfold window. set (use := filter _ _).
  destruct (Nat.leb_spec 5 (length use)) as [Hl|]; [|discriminate].
  assert (Hne : use <> []) by (destruct use; [cbn in Hl; lia|discriminate]).
  assert (Hla : In (last use O) use) by (apply last_In, Hne).
  assert (Hhd : In (hd O use) use) by (destruct use; [contradiction|left; reflexivity]).
  unfold use in Hla, Hhd. apply filter_In in Hla as [Hla Ha]. apply filter_In in Hhd as [Hhd Hb].
  fold use in Hla, Hhd, Ha, Hb. apply in_seq in Hla, Hhd. apply Rltb_iff in Ha, Hb.
  set (mi := Z.of_nat (hd O use)) in *. set (ma := Z.of_nat (last use O)) in *. set (c := Z.of_nat ind).
  destruct (mi >? c - 2)%Z eqn:E1; destruct (ma <? c + 2)%Z eqn:E2;
    repeat match goal with |- context [(?x =? ?y)%Z] => destruct (Z.eqb_spec x y) end;
    match goal with |- context [(5 <=? ?x)%Z] => destruct (Z.leb_spec 5 x) end; intros HH; try discriminate;
    injection HH as <-; (split;
    [rewrite !map_length, seq_length;
       rewrite ?Z.gtb_lt, ?Z.ltb_lt, ?Z.ltb_ge in *; lia
    |intros i Hi; apply in_map_iff in Hi as (zi & <- & Hi); apply in_map_iff in Hi as (kk & <- & Hk); apply in_seq in Hk;
     rewrite ?Z.gtb_lt, ?Z.ltb_lt, ?Z.ltb_ge in *;
     (split; [lia|]); exists (hd O use), (last use O); (split; [lia|split; assumption])]).
Qed.
