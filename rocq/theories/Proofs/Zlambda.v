(** Proofs about the cluster redshift. *)
From Coq Require Import QArith Qround Qabs Lqa Permutation Sorting.Sorted.
From Verif.Base Require Import Py PyLemmas Sort.
From Verif.Model Require Import Bkg Centering Zlambda.
From Verif.Spec Require Import Zlambda.
From Verif.Proofs Require Import Bkg Centering.
Local Open Scope nat_scope.

Lemma zl_use_iff maxrad maxmag n : zl_use maxrad maxmag n = true <-> usable maxrad maxmag n.
Proof. unfold zl_use, usable. rewrite !andb_true_iff, !Qlt_bool_iff. tauto. Qed.

(** np.around of a number between two integers *)
Lemma np_round_between (a b : Z) q : (inject_Z a <= q)%Q -> (q <= inject_Z b)%Q -> (a <= np_round q <= b)%Z.
Proof.
  intros H1 H2. unfold np_round. set (f := Qfloor q). pose proof (Qfloor_le q) as F1. pose proof (Qlt_floor q) as F2. fold f in F1, F2.
  assert (Ha : (a <= f)%Z). { unfold f. rewrite <- (Qfloor_Z a). apply Qfloor_resp_le, H1. }
  assert (Hb : (f <= b)%Z). { unfold f. rewrite <- (Qfloor_Z b). apply Qfloor_resp_le, H2. }
  assert (Hs : (~ (q == inject_Z f))%Q -> (f + 1 <= b)%Z).
  { intros Hn. destruct (Z.eq_dec f b) as [E|]; [|lia]. exfalso. apply Hn. rewrite E in *. lra. }
  destruct (Qlt_bool (q - inject_Z f) (1#2)) eqn:E; [lia|]. apply Qlt_bool_false in E.
  assert ((f + 1 <= b)%Z) by (apply Hs; lra). destruct (Qlt_bool _ _); [lia|]. destruct (Z.even f); lia.
Qed.
Lemma zl_ncount_bounds tf s n : 3 <= n -> (3 <= zl_ncount tf s n)%Q /\ (zl_ncount tf s n <= inject_Z (Z.of_nat n))%Q.
Proof.
  intros H. assert (Hn : (3 <= inject_Z (Z.of_nat n))%Q). { change 3%Q with (inject_Z 3). rewrite <- Zle_Qle. lia. }
  unfold zl_ncount. cbv zeta. destruct (Qlt_bool (tf * s) 3) eqn:E.
  - destruct (Qlt_bool (inject_Z (Z.of_nat n)) 3) eqn:E2; [apply Qlt_bool_iff in E2; lra|]. split; lra.
  - apply Qlt_bool_false in E. destruct (Qlt_bool (inject_Z (Z.of_nat n)) (tf * s)) eqn:E2; [split; lra|].
    apply Qlt_bool_false in E2. split; lra.
Qed.
Lemma py_index_nat {A} (l : list A) i : py_index l (Z.of_nat i) = match nth_error l i with Some x => Ok x | None => Err IndexError end.
Proof.
  unfold py_index. destruct (Z.of_nat i <? 0)%Z eqn:E; [apply Z.ltb_lt in E; lia|]. rewrite Nat2Z.id.
  assert ((Z.of_nat i <? 0)%Z = false) by exact E. rewrite H. cbn [orb].
  destruct (Z.of_nat (List.length l) <=? Z.of_nat i)%Z eqn:E2.
  - apply Z.leb_le in E2. assert (N : nth_error l i = None) by (apply nth_error_None; lia). rewrite N. reflexivity.
  - reflexivity.
Qed.
Lemma three_first (l : list nat) : StronglySorted lt l -> 3 <= List.length l -> exists i j k, In i l /\ In j l /\ In k l /\ i < j < k.
Proof.
  destruct l as [|a [|b [|c t]]]; cbn; intros Hs Hl; try lia. exists a, b, c.
  inversion Hs as [|? ? Hs1 F1]; subst. inversion Hs1 as [|? ? Hs2 F2]; subst.
  rewrite Forall_forall in F1, F2. repeat split; auto. apply F1; left; reflexivity. apply F2; left; reflexivity.
Qed.
Lemma three_count (l : list nat) i j k : i < j < k -> In i l -> In j l -> In k l -> 3 <= List.length l.
Proof.
  intros H Hi Hj Hk. assert (N : NoDup [i; j; k]) by (repeat constructor; cbn; intuition lia).
  apply (NoDup_incl_length N). intros x [<-|[<-|[<-|[]]]]; assumption.
Qed.

Lemma zl_few asort ex tf maxrad maxmag l : zl_select asort ex tf maxrad maxmag l = Ok None <-> ~ three_usable maxrad maxmag l.
Proof.
  pose proof (np_where_spec (zl_use maxrad maxmag) l) as W.
  pose proof (where_from_sorted (zl_use maxrad maxmag) l 0) as S. fold (np_where (zl_use maxrad maxmag) l) in S.
  unfold zl_select. destruct (Nat.ltb _ 3) eqn:E.
  - apply Nat.ltb_lt in E. split; [intros _|reflexivity]. intros (i & j & k & a & b & c & Hijk & Ha & Hb & Hc & Ua & Ub & Uc).
    assert (3 <= List.length (np_where (zl_use maxrad maxmag) l)); [|lia].
    apply (three_count _ i j k Hijk); apply W; eexists; (split; [eassumption|apply zl_use_iff; assumption]).
  - apply Nat.ltb_ge in E. split.
    + intros H. exfalso. destruct (np_take (map z_wt l) _) as [wu|]; [|discriminate]. cbn [bind] in H.
      destruct (py_index (desc asort wu) _); [|discriminate]. cbn [bind] in H. destruct (py_index wu _); [|discriminate]. cbn [bind] in H.
      destruct (np_take _ _); [|discriminate]. cbn [bind] in H. destruct (np_take _ _); discriminate.
    + intros H. exfalso. apply H. destruct (three_first _ S E) as (i & j & k & Hi & Hj & Hk & Hlt).
      apply W in Hi. apply W in Hj. apply W in Hk. destruct Hi as [a [Ha Ua]], Hj as [b [Hb Ub]], Hk as [c [Hc Uc]].
      apply zl_use_iff in Ua. apply zl_use_iff in Ub. apply zl_use_iff in Uc. exists i, j, k, a, b, c. auto 10.
Qed.

Lemma zl_pw_pos ex p w : exp_like ex -> (0 < zl_pw ex p w /\ zl_pw ex p w < 1)%Q.
Proof.
  intros H. unfold zl_pw. destruct (H ((p - w) / (4#100))%Q) as [H1 _]. set (x := ex _) in *. split.
  - apply Qlt_shift_div_l; lra.
  - apply Qlt_shift_div_r; lra.
Qed.
Lemma zl_pw_half ex p w : exp_like ex -> (p <= w)%Q -> ((1#2) <= zl_pw ex p w)%Q.
Proof.
  intros H Hle. unfold zl_pw. destruct (H ((p - w) / (4#100))%Q) as [H1 H2].
  assert (H3 : ((p - w) / (4#100) <= 0)%Q). { apply Qle_shift_div_r; [reflexivity|]. lra. }
  specialize (H2 H3). set (x := ex _) in *. apply Qle_shift_div_l; lra.
Qed.
Lemma np_where_sub_len {A} (p : A -> bool) l (L : list nat) : NoDup L ->
  (forall i, In i L -> exists x, nth_error l i = Some x /\ p x = true) -> List.length L <= List.length (np_where p l).
Proof. intros N H. apply (NoDup_incl_length N). intros i Hi. apply np_where_spec, H, Hi. Qed.

Lemma zl_chosen asort ex tf maxrad maxmag l : argsort_spec asort -> exp_like ex -> three_usable maxrad maxmag l ->
  exists sel pthresh, zl_select asort ex tf maxrad maxmag l = Ok (Some sel) /\ 3 <= List.length sel /\ NoDup (map fst sel) /\
   (forall i w, In (i, w) sel -> exists n, nth_error l i = Some n /\ usable maxrad maxmag n /\ (0 < w /\ w < 1)%Q) /\
   (exists i n, In i (map fst sel) /\ nth_error l i = Some n /\ z_wt n = pthresh) /\
   (forall i n, nth_error l i = Some n -> usable maxrad maxmag n -> (pthresh <= z_wt n)%Q -> In i (map fst sel)).
Proof.
  intros HA HE H3.
  pose proof (np_where_spec (zl_use maxrad maxmag) l) as W. pose proof (np_where_NoDup (zl_use maxrad maxmag) l) as N.
  assert (E : 3 <= List.length (np_where (zl_use maxrad maxmag) l)).
  { destruct H3 as (i & j & k & a & b & c & Hijk & Ha & Hb & Hc & Ua & Ub & Uc).
    apply (three_count _ i j k Hijk); apply W; eexists; (split; [eassumption|apply zl_use_iff; assumption]). }
  unfold zl_select. set (use := np_where (zl_use maxrad maxmag) l) in *.
  destruct (Nat.ltb (List.length use) 3) eqn:E3; [apply Nat.ltb_lt in E3; lia|]. clear E3.
  destruct (zl_ncount_bounds tf (Qsum (map z_wt l)) (List.length use) E) as [B1 B2]. set (nc := zl_ncount _ _ _) in *.
  pose proof (np_round_between 3 (Z.of_nat (List.length use)) nc B1 B2) as R.
  destruct (np_take_total (map z_wt l) use) as [wu Ewu].
  { intros i Hi. apply W in Hi. destruct Hi as [x [Hx _]]. rewrite map_length. apply nth_error_Some. congruence. }
  rewrite Ewu. cbn [bind]. pose proof (np_take_len _ _ _ Ewu) as Lwu. pose proof (desc_length asort wu HA) as Ld.
  replace (np_round nc - 1)%Z with (Z.of_nat (Z.to_nat (np_round nc - 1))) by lia. set (r := Z.to_nat (np_round nc - 1)).
  assert (Hr2 : 2 <= r) by (unfold r; lia). assert (Hr : r < List.length (desc asort wu)) by (unfold r; lia).
  rewrite py_index_nat. destruct (nth_error (desc asort wu) r) as [si|] eqn:Esi; [|apply nth_error_None in Esi; lia]. cbn [bind].
  assert (Hsi : si < List.length wu) by (apply (desc_In asort wu si HA), nth_error_In with r; exact Esi).
  rewrite py_index_nat. destruct (nth_error wu si) as [pth|] eqn:Epth; [|apply nth_error_None in Epth; lia]. cbn [bind].
  set (pw := map (zl_pw ex pth) wu). set (gd := np_where (fun p => Qlt_bool (1#1000) p) pw).
  assert (Lpw : List.length pw = List.length use) by (unfold pw; rewrite map_length; exact Lwu).
  assert (Hgd : forall k, In k gd <-> exists w, nth_error wu k = Some w /\ ((1#1000) < zl_pw ex pth w)%Q).
  { intros k. unfold gd. rewrite np_where_spec. unfold pw. rewrite nth_error_map. split.
    - intros [p [H1 H2]]. destruct (nth_error wu k) as [w|]; [|discriminate]. injection H1 as <-. exists w. split; [reflexivity|apply Qlt_bool_iff, H2].
    - intros [w [H1 H2]]. rewrite H1. eexists. split; [reflexivity|apply Qlt_bool_iff, H2]. }
  assert (Hgl : forall k, In k gd -> k < List.length use).
  { intros k Hk. apply Hgd in Hk. destruct Hk as [w [Hw _]]. rewrite <- Lwu. apply nth_error_Some. congruence. }
  destruct (np_take_total use gd Hgl) as [ix Eix]. destruct (np_take_total pw gd) as [pg Epg]; [intros k Hk; rewrite Lpw; apply Hgl, Hk|].
  rewrite Eix, Epg. cbn [bind]. pose proof (np_take_len _ _ _ Eix) as Lix. pose proof (np_take_len _ _ _ Epg) as Lpg.
  assert (Hfst : map fst (combine ix pg) = ix).
  { assert (G : List.length ix = List.length pg) by lia. revert G. generalize pg as q. clear. induction ix as [|x ix IH]; intros [|y q] G; cbn in *; try lia; [reflexivity|]. f_equal. apply IH. lia. }
  exists (combine ix pg), pth. split; [reflexivity|].
  assert (Hwu : forall k i, nth_error use k = Some i -> exists n, nth_error l i = Some n /\ usable maxrad maxmag n /\ nth_error wu k = Some (z_wt n)).
  { intros k i Hk. assert (Hi : In i use) by (apply nth_error_In with k; exact Hk). apply W in Hi. destruct Hi as [n [Hn Hu]].
    exists n. split; [exact Hn|]. split; [apply zl_use_iff, Hu|].
    destruct (np_take_nth _ _ _ _ _ Ewu Hk) as [w [H1 H2]]. rewrite (map_nth_error z_wt _ _ Hn) in H1. congruence. }
  assert (Hsel : forall k w, nth_error wu k = Some w -> (pth <= w)%Q -> In k gd).
  { intros k w Hk Hle. apply Hgd. exists w. split; [exact Hk|]. pose proof (zl_pw_half ex pth w HE Hle). lra. }
  assert (NDix : NoDup ix).
  { apply NoDup_nth_error. intros a b Ha Hab. destruct (nth_error ix a) as [x|] eqn:Ex; [|apply nth_error_None in Ex; lia].
    destruct (np_take_nth_inv _ _ _ _ _ Eix Ex) as [g [G1 G2]]. symmetry in Hab. destruct (np_take_nth_inv _ _ _ _ _ Eix Hab) as [g' [G1' G2']].
    assert (g = g') by (apply (proj1 (NoDup_nth_error use) N); [apply nth_error_Some; congruence|congruence]). subst g'.
    apply (proj1 (NoDup_nth_error gd) (np_where_NoDup _ _)); [apply nth_error_Some; congruence|congruence]. }
  split; [|split; [|split; [|split]]].
  - (* the first three of the ordering are kept *)
    rewrite combine_length, Lix, Lpg, Nat.min_id.
    destruct (nth_error (desc asort wu) 0) as [s0|] eqn:E0; [|apply nth_error_None in E0; lia].
    destruct (nth_error (desc asort wu) 1) as [s1|] eqn:E1; [|apply nth_error_None in E1; lia].
    assert (Hd : forall a s, a <= r -> nth_error (desc asort wu) a = Some s -> In s gd).
    { intros a s Ha Hs. assert (Hsl : s < List.length wu) by (apply (desc_In asort wu s HA), nth_error_In with a; exact Hs).
      destruct (nth_error wu s) as [w|] eqn:Ew; [|apply nth_error_None in Ew; lia]. apply (Hsel s w Ew).
      destruct (Nat.eq_dec a r) as [->|]; [assert (s = si) by congruence; subst; assert (w = pth) by congruence; subst; lra|].
      apply (desc_sorted asort wu a r s si w pth HA ltac:(lia) Hs Esi Ew Epth). }
    destruct (nth_error (desc asort wu) 2) as [s2|] eqn:E2; [|apply nth_error_None in E2; lia].
    assert (ND : NoDup [s0; s1; s2]).
    { pose proof (proj1 (NoDup_nth_error _) (desc_NoDup asort wu HA)) as U.
      assert (s0 <> s1) by (intros ->; assert (0 = 1) by (apply U; [lia|congruence]); lia).
      assert (s0 <> s2) by (intros ->; assert (0 = 2) by (apply U; [lia|congruence]); lia).
      assert (s1 <> s2) by (intros ->; assert (1 = 2) by (apply U; [lia|congruence]); lia).
      repeat constructor; cbn; intuition congruence. }
    apply (NoDup_incl_length ND). intros x [<-|[<-|[<-|[]]]]; [apply (Hd 0)|apply (Hd 1)|apply (Hd 2)]; auto; lia.
  - rewrite Hfst. exact NDix.
  - intros i w Hin. apply In_nth_error in Hin. destruct Hin as [a Ha].
    assert (Hab : nth_error ix a = Some i /\ nth_error pg a = Some w).
    { revert Ha. clear. revert pg a. induction ix as [|x ix IH]; intros [|y q] [|a]; cbn; try discriminate; [intros [= <- <-]; auto|apply IH]. }
    destruct Hab as [H1 H2]. destruct (np_take_nth_inv _ _ _ _ _ Eix H1) as [g [G1 G2]]. destruct (Hwu _ _ G2) as [n [Hn [Hu _]]].
    exists n. split; [exact Hn|]. split; [exact Hu|].
    destruct (np_take_nth_inv _ _ _ _ _ Epg H2) as [g' [_ Gp]]. unfold pw in Gp. apply nth_error_In, in_map_iff in Gp. destruct Gp as [w0 [<- _]].
    apply zl_pw_pos, HE.
  - rewrite Hfst. destruct (nth_error use si) as [i|] eqn:Ei; [|apply nth_error_None in Ei; lia]. destruct (Hwu _ _ Ei) as [n [Hn [_ Hw]]].
    exists i, n. split; [|split; [exact Hn|congruence]].
    assert (Hsg : In si gd) by (apply (Hsel si pth Epth); lra). apply In_nth_error in Hsg. destruct Hsg as [a Ha].
    destruct (np_take_nth _ _ _ _ _ Eix Ha) as [x [X1 X2]]. apply nth_error_In with a. congruence.
  - intros i n Hn Hu Hle. rewrite Hfst. assert (Hi : In i use) by (apply W; exists n; split; [exact Hn|apply zl_use_iff, Hu]).
    apply In_nth_error in Hi. destruct Hi as [k Hk]. destruct (Hwu _ _ Hk) as [n' [Hn' [_ Hw]]]. assert (n' = n) by congruence. subst n'.
    pose proof (Hsel k _ Hw Hle) as Hg. apply In_nth_error in Hg. destruct Hg as [a Ha].
    destruct (np_take_nth _ _ _ _ _ Eix Ha) as [x [X1 X2]]. apply nth_error_In with a. congruence.
Qed.

(** ** the iteration *)
Lemma clipQ_bounds lo hi x : (lo <= hi)%Q -> (lo <= clipQ lo hi x /\ clipQ lo hi x <= hi)%Q.
Proof.
  intros H. unfold clipQ, Qmin2, Qmax2. destruct (Qle_bool x lo) eqn:E; destruct (Qle_bool _ hi) eqn:E2;
  try apply Qle_bool_iff in E; try apply Qle_bool_false in E; try apply Qle_bool_iff in E2; try apply Qle_bool_false in E2; split; lra.
Qed.
Lemma calcz_near step z v : (0 <= step)%Q -> (Qabs (calcz step z v - z) <= (11#2) * step)%Q.
Proof.
  intros H. unfold calcz. match goal with |- context [clipQ ?a ?b ?x] => destruct (clipQ_bounds a b x) as [H1 H2]; [lra|] end.
  set (c := clipQ _ _ _) in *. apply Qabs_Qle_condition. split; lra.
Qed.
Lemma calcz_none step z : (0 <= step)%Q -> (0 <= z)%Q -> ((11#2) * step - 1 <= z)%Q -> (calcz step z None == z - (11#2) * step)%Q.
Proof.
  intros H Hz H1. unfold calcz, clipQ, Qmin2, Qmax2. destruct (Qle_bool (-1) _) eqn:E.
  - destruct (Qle_bool _ (step * 9 + _ - _ + _)) eqn:E2; [lra|]. apply Qle_bool_false in E2. lra.
  - apply Qle_bool_false in E. lra.
Qed.

Lemma zloop_len obs mlim gv step tol left i z mm z' i' tr : zloop obs mlim gv step tol left i z mm = (z', i', tr) -> List.length tr <= left.
Proof.
  revert i z mm z' i' tr. induction left as [|left IH]; intros i z mm z' i' tr; cbn [zloop]; [intros [= <- <- <-]; cbn; lia|].
  destruct (Qlt_bool z 0); [intros [= <- <- <-]; cbn; lia|]. cbv zeta.
  destruct (obs i z _) as [| | |v]; try (intros [= <- <- <-]; cbn; lia).
  destruct (_ && _); [intros [= <- <- <-]; cbn; lia|]. destruct (Qlt_bool _ 0); [intros [= <- <- <-]; cbn; lia|].
  destruct (zloop _ _ _ _ _ left _ _ _) as [[z2 i2] tr2] eqn:E. intros [= <- <- <-]. apply IH in E. cbn. lia.
Qed.
Lemma zloop_fail obs mlim gv step tol left i z mm z' i' tr p : zloop obs mlim gv step tol left i z mm = (z', i', tr) ->
  In p tr -> pass_fails p = true -> z' = (-1)%Q.
Proof.
  revert i z mm z' i' tr. induction left as [|left IH]; intros i z mm z' i' tr; cbn [zloop]; [intros [= <- <- <-] []|].
  destruct (Qlt_bool z 0); [intros [= <- <- <-] []|]. cbv zeta.
  destruct (obs i z _) as [| | |v]; try (intros [= <- <- <-]; reflexivity).
  destruct (_ && _); [intros [= <- <- <-] [<-|[]]; discriminate|]. destruct (Qlt_bool _ 0); [intros [= <- <- <-] [<-|[]]; discriminate|].
  destruct (zloop _ _ _ _ _ left _ _ _) as [[z2 i2] tr2] eqn:E. intros [= <- <- <-] [<-|H] Hp; [discriminate|]. eapply IH; eauto.
Qed.
(** each pass moves the redshift by at most 5.5 steps *)
Lemma zloop_range obs mlim gv step tol left i z mm z' i' tr : (0 <= step)%Q -> zloop obs mlim gv step tol left i z mm = (z', i', tr) ->
  z' = (-1)%Q \/ (Qabs (z' - z) <= (11#2) * step * inject_Z (Z.of_nat (List.length tr)))%Q.
Proof.
  intros Hst. revert i z mm z' i' tr.
  assert (Z0 : forall z n, (Qabs (z - z) <= (11#2) * step * inject_Z (Z.of_nat n))%Q).
  { intros z n. assert (0 <= inject_Z (Z.of_nat n))%Q by (change 0%Q with (inject_Z 0); rewrite <- Zle_Qle; lia).
    assert (E : (z - z == 0)%Q) by ring. rewrite E. cbn. nra. }
  induction left as [|left IH]; intros i z mm z' i' tr; cbn [zloop]; [intros [= <- <- <-]; right; apply Z0|].
  destruct (Qlt_bool z 0); [intros [= <- <- <-]; right; apply Z0|]. cbv zeta.
  destruct (obs i z _) as [| | |v]; try (intros [= <- <- <-]; left; reflexivity).
  pose proof (calcz_near step z v Hst) as Hn.
  destruct (_ && _); [intros [= <- <- <-]; right; apply Z0|].
  destruct (Qlt_bool (calcz step z v) 0); [intros [= <- <- <-]; right; cbn [List.length]; change (inject_Z (Z.of_nat 1)) with 1%Q; lra|].
  destruct (zloop _ _ _ _ _ left _ _ _) as [[z2 i2] tr2] eqn:E. intros [= <- <- <-]. apply IH in E. destruct E as [->|E]; [left; reflexivity|right].
  apply Qabs_Qle_condition in E. apply Qabs_Qle_condition in Hn. apply Qabs_Qle_condition.
  cbn [List.length]. rewrite Nat2Z.inj_succ, <- Z.add_1_r, inject_Z_plus. change (inject_Z 1) with 1%Q. lra.
Qed.
(** a fit without a minimum is not noticed: the redshift just drifts down *)
Lemma zloop_none obs mlim gv step tol left i z mm z' i' tr : (0 <= step)%Q -> (forall i z m, obs i z m = Fit None) ->
  ((11#2) * step * inject_Z (Z.of_nat left) < z)%Q ->
  zloop obs mlim gv step tol left i z mm = (z', i', tr) -> never_measured tr /\ (0 < z')%Q.
Proof.
  intros Hst Ho. revert i z mm z' i' tr.
  induction left as [|left IH]; intros i z mm z' i' tr Hz; cbn [zloop].
  - intros [= <- <- <-]. split; [intros p []|]. change (inject_Z (Z.of_nat 0)) with 0%Q in Hz. lra.
  - assert (Hz' : ((11#2) * step * inject_Z (Z.of_nat left) < z - (11#2) * step)%Q).
    { rewrite Nat2Z.inj_succ, <- Z.add_1_r, inject_Z_plus in Hz. change (inject_Z 1) with 1%Q in Hz. lra. }
    assert (Hl : (0 <= inject_Z (Z.of_nat left))%Q) by (change 0%Q with (inject_Z 0); rewrite <- Zle_Qle; lia).
    assert (Hzp : (0 < z - (11#2) * step)%Q) by nra.
    destruct (Qlt_bool z 0) eqn:E0; [apply Qlt_bool_iff in E0; lra|]. cbv zeta. rewrite Ho.
    pose proof (calcz_none step z Hst ltac:(lra) ltac:(lra)) as Hc.
    destruct (_ && _); [intros [= <- <- <-]; split; [intros p [<-|[]]; reflexivity|lra]|].
    destruct (Qlt_bool (calcz step z None) 0) eqn:E1; [apply Qlt_bool_iff in E1; lra|].
    destruct (zloop _ _ _ _ _ left _ _ _) as [[z2 i2] tr2] eqn:E. intros [= <- <- <-].
    apply IH in E; [|lra]. destruct E as [E E']. split; [|exact E']. intros p [<-|H]; [reflexivity|apply E, H].
Qed.
Lemma zloop_nonempty obs mlim gv step tol left i z mm z' i' tr : 0 < left -> zloop obs mlim gv step tol left i z mm = (z', i', tr) ->
  (0 <= z)%Q -> tr <> [].
Proof.
  intros Hl. destruct left as [|left]; [lia|]. cbn [zloop]. intros H Hz. 
  destruct (Qlt_bool z 0) eqn:E; [apply Qlt_bool_iff in E; lra|]. cbv zeta in H.
  apply (f_equal snd) in H. revert H. destruct (obs i z _) as [| | |v]; try (cbn; intros <-; discriminate).
  destruct (negb (Nat.eqb i 0) && (Qlt_bool (Qabs (calcz step z v - z)) tol || Qlt_bool (calcz step z v) 0)); [cbn; intros <-; discriminate|].
  destruct (Qlt_bool (calcz step z v) 0); [cbn; intros <-; discriminate|].
  destruct (zloop _ _ _ _ _ left _ _ _) as [[? ?] ?]. cbn. intros <-. discriminate.
Qed.
Lemma zloop_given obs mlim step tol left i z m m' : zloop obs mlim true step tol left i z m = zloop obs mlim true step tol left i z m'.
Proof.
  destruct left as [|left]; [reflexivity|]. cbn [zloop]. reflexivity.
Qed.

(** each pass is made at the redshift the pass before proposed *)
Lemma calcz_proposes step z v : (0 <= step)%Q -> proposes step z v (calcz step z v).
Proof.
  intros Hs. unfold proposes, calcz. cbv zeta. set (x := match v with Some x => x | None => (-1)%Q end).
  unfold clipQ, Qmin2, Qmax2. destruct (Qle_bool x _) eqn:Ex; [apply Qle_bool_iff in Ex|apply Qle_bool_false in Ex];
  repeat match goal with |- context [Qle_bool ?a ?b] => let E := fresh in destruct (Qle_bool a b) eqn:E; [apply Qle_bool_iff in E|apply Qle_bool_false in E] end;
  (split; [|split]); intros; repeat match goal with H : _ /\ _ |- _ => destruct H end; lra.
Qed.
Definition search_from (what : nat -> Q -> pass) (step tol : Q) (left i0 : nat) (zin : Q) (zs : list Q) (tr : list pass) (z : Q) : Prop :=
  List.length zs = List.length tr /\ List.length tr <= left /\ nth_error zs 0 = Some zin /\
  (forall i zi p, nth_error zs i = Some zi -> nth_error tr i = Some p -> p = what (i0 + i) zi) /\
  (forall i zi v z', nth_error zs i = Some zi -> nth_error tr i = Some (Fit v) -> nth_error zs (S i) = Some z' -> proposes step zi v z' /\ (0 <= z')%Q) /\
  exists zl p, nth_error zs (List.length tr - 1) = Some zl /\ nth_error tr (List.length tr - 1) = Some p /\
    match p with
    | Fit v => exists z', proposes step zl v z' /\
        ((2 <= i0 + List.length tr /\ (Qabs (z' - zl) < tol \/ z' < 0)%Q /\ z = zl) \/
         ((z' < 0)%Q /\ i0 + List.length tr = 1 /\ z = z') \/ (List.length tr = left /\ z = z'))
    | _ => z = (-1)%Q
    end.
Lemma search_one what step tol left i0 z p r : p = what i0 z -> 1 <= left ->
  match p with
    | Fit v => exists z', proposes step z v z' /\
        ((1 <= i0 /\ (Qabs (z' - z) < tol \/ z' < 0)%Q /\ r = z) \/
         ((z' < 0)%Q /\ i0 = 0 /\ r = z') \/ (left = 1 /\ r = z'))
    | _ => r = (-1)%Q
    end -> search_from what step tol left i0 z [z] [p] r.
Proof.
  intros Hp Hl H. unfold search_from. cbn [List.length]. split; [reflexivity|]. split; [exact Hl|]. split; [reflexivity|]. split; [|split].
  - intros i zi q. destruct i as [|[|i]]; cbn; intros A B; try discriminate. injection A as <-. injection B as <-. rewrite Nat.add_0_r. exact Hp.
  - intros [|i] zi v z' _ _ C; cbn in C; [discriminate|]. destruct i; discriminate.
  - exists z, p. split; [reflexivity|]. split; [reflexivity|]. destruct p; try exact H. destruct H as (z' & H & C). exists z'. split; [exact H|].
    destruct C as [(A & B & C)|[(A & B & C)|(A & B)]]; [left|right; left|right; right]; repeat split; auto; lia.
Qed.
Lemma zloop_search obs mlim gv step tol left : (0 <= step)%Q -> forall i z mm r i' tr, zloop obs mlim gv step tol left i z mm = (r, i', tr) ->
  (0 <= z)%Q -> 1 <= left -> exists zs, search_from (fun i z => obs i z (if gv then mlim z else mm)) step tol left i z zs tr r.
Proof.
  intros Hs. induction left as [|left IH]; intros i z mm r i' tr H Hz Hl; [lia|]. cbn [zloop] in H.
  destruct (Qlt_bool z 0) eqn:E0; [apply Qlt_bool_iff in E0; lra|]. cbv zeta in H.
  destruct (obs i z (if gv then mlim z else mm)) as [| | |v] eqn:Ep;
    try (injection H as <- <- <-; exists [z]; apply search_one; [symmetry; exact Ep|lia|reflexivity]).
  pose proof (calcz_proposes step z v Hs) as Hv. set (zn := calcz step z v) in *.
  destruct (negb (Nat.eqb i 0) && (Qlt_bool (Qabs (zn - z)) tol || Qlt_bool zn 0)) eqn:Ec.
  { injection H as <- <- <-. exists [z]. apply search_one; [symmetry; exact Ep|lia|]. exists zn. split; [exact Hv|]. left.
    apply andb_prop in Ec. destruct Ec as [A B]. apply negb_true_iff, Nat.eqb_neq in A. split; [lia|]. split; [|reflexivity].
    apply orb_prop in B. destruct B as [B|B]; apply Qlt_bool_iff in B; auto. }
  destruct (Qlt_bool zn 0) eqn:En.
  { injection H as <- <- <-. exists [z]. apply search_one; [symmetry; exact Ep|lia|]. exists zn. split; [exact Hv|]. right. left.
    rewrite orb_true_r, andb_true_r in Ec. apply negb_false_iff, Nat.eqb_eq in Ec. split; [apply Qlt_bool_iff, En|]. split; [exact Ec|reflexivity]. }
  apply Qlt_bool_false in En. destruct (zloop _ _ _ _ _ left _ _ _) as [[r2 i2] tr2] eqn:El. injection H as <- <- <-.
  destruct left as [|left'].
  { cbn in El. injection El as <- <- <-. exists [z]. apply search_one; [symmetry; exact Ep|lia|]. exists zn. split; [exact Hv|]. right. right. split; reflexivity. }
  destruct (IH _ _ _ _ _ _ El En ltac:(lia)) as (zs & L1 & L2 & L3 & L4 & L5 & zl & p & L6 & L7 & L8).
  assert (Lt : 1 <= List.length tr2). { destruct tr2 as [|? ?]; cbn in L7; [destruct (List.length (@nil pass) - 1); discriminate|cbn; lia]. }
  exists (z :: zs). unfold search_from. cbn [List.length]. split; [lia|]. split; [lia|]. split; [reflexivity|]. split; [|split].
  - intros [|k] zi q A B; cbn in A, B; [injection A as <-; injection B as <-; rewrite Nat.add_0_r; symmetry; exact Ep|].
    rewrite (L4 k zi q A B). replace (S i + k) with (i + S k) by lia. destruct gv; reflexivity.
  - intros [|k] zi w z' A B C; cbn in A, B, C; [|exact (L5 k zi w z' A B C)].
    injection A as <-. injection B as <-. change (nth_error zs 0 = Some z') in C. rewrite L3 in C. injection C as <-. split; [exact Hv|exact En].
  - exists zl, p. replace (S (List.length tr2) - 1) with (S (List.length tr2 - 1)) by lia. cbn [nth_error]. split; [exact L6|]. split; [exact L7|].
    destruct p; try exact L8. destruct L8 as (z' & H & C). exists z'. split; [exact H|].
    destruct C as [(A & B & C)|[(A & B & C)|(A & B)]]; [left|lia|right; right]; repeat split; auto; lia.
Qed.

Lemma zouter_len E gv step tol mi cp ce left k z e mm z' e' tr : zouter E gv step tol mi cp ce left k z e mm = (z', e', tr) ->
  List.length tr <= left * mi.
Proof.
  revert k z e z' e' tr. induction left as [|left IH]; intros k z e z' e' tr; cbn [zouter]; [intros [= <- <- <-]; cbn; lia|].
  destruct (zloop _ _ _ _ _ mi 0 z mm) as [[z1 i1] tr1] eqn:El. pose proof (zloop_len _ _ _ _ _ _ _ _ _ _ _ _ El) as L.
  destruct (_ && _); [|intros [= <- <- <-]; lia]. destruct cp; cbn [negb].
  - destruct (pzchk E k z1) as [|pk pe].
    + destruct (zouter _ _ _ _ _ _ _ left _ _ _ _) as [[z2 e2] tr2] eqn:E2. intros [= <- <- <-]. apply IH in E2. rewrite app_length. lia.
    + destruct (Qlt_bool _ tol); [intros [= <- <- <-]; lia|].
      destruct (zouter _ _ _ _ _ _ _ left _ _ _ _) as [[z2 e2] tr2] eqn:E2. intros [= <- <- <-]. apply IH in E2. rewrite app_length. lia.
  - destruct (Qlt_bool (gauss E z1) 0); intros [= <- <- <-]; lia.
Qed.
Lemma zouter_fail E gv step tol mi cp ce left k z e mm z' e' tr p : zouter E gv step tol mi cp ce left k z e mm = (z', e', tr) ->
  In p tr -> pass_fails p = true -> z' = (-1)%Q /\ e' = (-1)%Q.
Proof.
  revert k z e z' e' tr. induction left as [|left IH]; intros k z e z' e' tr; cbn [zouter]; [intros [= <- <- <-] []|].
  destruct (zloop _ _ _ _ _ mi 0 z mm) as [[z1 i1] tr1] eqn:El.
  assert (HF : In p tr1 -> pass_fails p = true -> z1 = (-1)%Q) by (intros; eapply zloop_fail; eauto).
  destruct (Qlt_bool 0 z1) eqn:Epos; cbn [andb].
  - assert (NF : In p tr1 -> pass_fails p = true -> False).
    { intros H1 H2. rewrite (HF H1 H2) in Epos. discriminate. }
    destruct ce; [|intros [= <- <- <-] H1 H2; exfalso; eauto]. destruct cp; cbn [negb].
    + destruct (pzchk E k z1) as [|pk pe].
      * destruct (zouter _ _ _ _ _ _ _ left _ _ _ _) as [[z2 e2] tr2] eqn:E2. intros [= <- <- <-] Hin Hp.
        apply in_app_or in Hin. destruct Hin as [Hin|Hin]; [exfalso; eauto|]. eapply IH; eauto.
      * destruct (Qlt_bool _ tol); [intros [= <- <- <-] H1 H2; exfalso; eauto|].
        destruct (zouter _ _ _ _ _ _ _ left _ _ _ _) as [[z2 e2] tr2] eqn:E2. intros [= <- <- <-] Hin Hp.
        apply in_app_or in Hin. destruct Hin as [Hin|Hin]; [exfalso; eauto|]. eapply IH; eauto.
    + destruct (Qlt_bool (gauss E z1) 0); intros [= <- <- <-] H1 H2; exfalso; eauto.
  - intros [= <- <- <-] H1 H2. split; [auto|reflexivity].
Qed.
Lemma zouter_given E step tol mi cp ce left k z e m m' : zouter E true step tol mi cp ce left k z e m = zouter E true step tol mi cp ce left k z e m'.
Proof.
  revert k z e. induction left as [|left IH]; intros k z e; cbn [zouter]; [reflexivity|].
  rewrite (zloop_given _ _ _ _ _ _ _ m m'). destruct (zloop _ _ _ _ _ mi 0 z m') as [[z1 i1] tr1].
  destruct (_ && _); [|reflexivity]. destruct cp; cbn [negb]; [|reflexivity].
  destruct (pzchk E k z1); [rewrite IH; reflexivity|]. destruct (Qlt_bool _ tol); [reflexivity|]. rewrite IH. reflexivity.
Qed.

(** ** grids *)
Lemma qn_S n : (qn (S n) == qn n + 1)%Q.
Proof. unfold qn. rewrite Nat2Z.inj_succ, <- Z.add_1_r, inject_Z_plus. reflexivity. Qed.
Lemma qn_lt a b : a < b -> (qn a < qn b)%Q.
Proof. intros H. unfold qn. rewrite <- Zlt_Qlt. lia. Qed.
Lemma fast_uniform n z zhi : 2 <= n -> exists dz, ((5#1000) <= dz /\ dz <= (15#100))%Q /\
  uniform n (z - dz) (2 * dz / (qn n - 1)) (fast_grid n z zhi).
Proof.
  intros Hn. unfold fast_grid. cbv zeta. destruct (clipQ_bounds (5#1000) (15#100) (zhi - z)) as [H1 H2]; [lra|]. set (dz := clipQ _ _ _) in *.
  exists dz. split; [split; assumption|]. pose proof (qn_lt 1 n ltac:(lia)) as Hq. change (qn 1) with 1%Q in Hq.
  repeat split.
  - apply Qlt_shift_div_l; lra.
  - rewrite map_length, seq_length. reflexivity.
  - intros i x Hx. rewrite nth_error_map in Hx. destruct (nth_error (seq 0 n) i) as [k|] eqn:Ek; [|discriminate]. injection Hx as <-.
    assert (k = i). { assert (i < n) by (rewrite <- (seq_length n 0); apply nth_error_Some; congruence).
      apply (nth_error_nth _ _ 0) in Ek. rewrite seq_nth in Ek by assumption. lia. }
    subst k. change (inject_Z (Z.of_nat i)) with (qn i). ring.
Qed.
Lemma uniform_increasing n a h g i j x y : uniform n a h g -> i < j -> nth_error g i = Some x -> nth_error g j = Some y -> (x < y)%Q.
Proof.
  intros (Hh & _ & H) Hij Hx Hy. rewrite (H _ _ Hx), (H _ _ Hy). pose proof (qn_lt i j Hij). unfold qn in *. nra.
Qed.
Lemma fast_middle m z zhi x : 1 <= m -> nth_error (fast_grid (2 * m + 1) z zhi) m = Some x -> (x == z)%Q.
Proof.
  intros Hm Hx. destruct (fast_uniform (2 * m + 1) z zhi ltac:(lia)) as (dz & _ & Hh & _ & H). rewrite (H _ _ Hx).
  change (inject_Z (Z.of_nat m)) with (qn m).
  assert (E : (qn (2 * m + 1) - 1 == 2 * qn m)%Q).
  { unfold qn. replace (2 * m + 1) with (S (m + m)) by lia. rewrite Nat2Z.inj_succ, Nat2Z.inj_add, <- Z.add_1_r, !inject_Z_plus. change (inject_Z 1) with 1%Q. ring. }
  rewrite E. pose proof (qn_lt 0 m ltac:(lia)). change (qn 0) with 0%Q in *. field. lra.
Qed.
(** an even number of points: neither of the two middle ones is z *)
Lemma fast_even m z zhi k x : 1 <= m -> nth_error (fast_grid (2 * m) z zhi) k = Some x -> ~ (x == z)%Q.
Proof.
  intros Hm Hx Hz. destruct (fast_uniform (2 * m) z zhi ltac:(lia)) as (dz & [D1 D2] & Hh & _ & H). rewrite (H _ _ Hx) in Hz.
  change (inject_Z (Z.of_nat k)) with (qn k) in Hz.
  pose proof (qn_lt 1 (2 * m) ltac:(lia)) as Hq. change (qn 1) with 1%Q in Hq.
  assert (E : (2 * qn k == qn (2 * m) - 1)%Q).
  { assert (Hz2 : (dz * (2 * qn k - (qn (2 * m) - 1)) == 0)%Q).
    { transitivity ((z - dz + 2 * dz / (qn (2 * m) - 1) * qn k - z) * (qn (2 * m) - 1))%Q; [field; lra|]. rewrite Hz. ring. }
    destruct (Qmult_integral _ _ Hz2); lra. }
  unfold qn in E. change (2%Q) with (inject_Z 2) in E. change (1%Q) with (inject_Z 1) in E. unfold Qminus in E.
  rewrite <- inject_Z_mult, <- inject_Z_opp, <- inject_Z_plus in E.
  pose proof (proj1 (inject_Z_injective _ _) E) as E2. rewrite Nat2Z.inj_mul in E2. lia.
Qed.

(** the walks end *)
Lemma Qmax2_ge a b : (a <= Qmax2 a b)%Q /\ (b <= Qmax2 a b)%Q.
Proof. unfold Qmax2. destruct (Qle_bool a b) eqn:E; [apply Qle_bool_iff in E|apply Qle_bool_false in E]; split; lra. Qed.
Lemma Qmax2_mono a b c : (a <= b)%Q -> (Qmax2 a c <= Qmax2 b c)%Q.
Proof.
  intros H. unfold Qmax2. destruct (Qle_bool a c) eqn:E; destruct (Qle_bool b c) eqn:E2;
  try apply Qle_bool_iff in E; try apply Qle_bool_false in E; try apply Qle_bool_iff in E2; try apply Qle_bool_false in E2; lra.
Qed.
Lemma Qmin2_mono a b c : (a <= b)%Q -> (Qmin2 a c <= Qmin2 b c)%Q.
Proof.
  intros H. unfold Qmin2. destruct (Qle_bool a c) eqn:E; destruct (Qle_bool b c) eqn:E2;
  try apply Qle_bool_iff in E; try apply Qle_bool_false in E; try apply Qle_bool_iff in E2; try apply Qle_bool_false in E2; lra.
Qed.
Lemma walk_low_ends fuel ratio zmin lowz : (lowz - zmin < (5#100) * qn fuel)%Q ->
  exists r, walk_low (S fuel) ratio zmin lowz = Some r /\ (zmin <= r)%Q /\ (r <= Qmax2 lowz zmin)%Q.
Proof.
  revert lowz. induction fuel as [|f IH]; intros lowz Hf; cbn [walk_low]; destruct (Qle_bool zmin lowz) eqn:E.
  - apply Qle_bool_iff in E. change (qn 0) with 0%Q in Hf. exfalso. lra.
  - eexists. split; [reflexivity|]. destruct (Qmax2_ge lowz zmin). split; [assumption|lra].
  - destruct (Qlt_bool (1#100) (ratio lowz)).
    + rewrite qn_S in Hf. destruct (IH (lowz - (5#100))%Q) as (r & H1 & H2 & H3); [lra|]. cbn [walk_low] in H1. rewrite H1.
      exists r. repeat split; auto. eapply Qle_trans; [exact H3|]. apply Qmax2_mono. lra.
    + eexists. split; [reflexivity|]. destruct (Qmax2_ge lowz zmin). split; [assumption|lra].
  - eexists. split; [reflexivity|]. destruct (Qmax2_ge lowz zmin). split; [assumption|lra].
Qed.
Lemma walk_high_ends fuel ratio zmax highz : (zmax - highz < (5#100) * qn fuel)%Q ->
  exists r, walk_high (S fuel) ratio zmax highz = Some r /\ (r <= zmax)%Q /\ (Qmin2 highz zmax <= r)%Q.
Proof.
  revert highz. induction fuel as [|f IH]; intros highz Hf; cbn [walk_high]; destruct (Qle_bool highz zmax) eqn:E.
  - apply Qle_bool_iff in E. change (qn 0) with 0%Q in Hf. exfalso. lra.
  - eexists. split; [reflexivity|]. destruct (Qmin2_spec highz zmax) as [? [? _]]. split; [assumption|lra].
  - destruct (Qlt_bool (1#100) (ratio highz)).
    + rewrite qn_S in Hf. destruct (IH (highz + (5#100))%Q) as (r & H1 & H2 & H3); [lra|]. cbn [walk_high] in H1. rewrite H1.
      exists r. repeat split; auto. eapply Qle_trans; [|exact H3]. apply Qmin2_mono. lra.
    + eexists. split; [reflexivity|]. destruct (Qmin2_spec highz zmax) as [? [? _]]. split; [assumption|lra].
  - eexists. split; [reflexivity|]. destruct (Qmin2_spec highz zmax) as [? [? _]]. split; [assumption|lra].
Qed.

(** the slow grid: uniform, with z on one of its points *)
Lemma seq_nth_error n i k : nth_error (seq 0 n) i = Some k -> k = i.
Proof.
  intros Ek. assert (i < n) by (rewrite <- (seq_length n 0); apply nth_error_Some; congruence).
  apply (nth_error_nth _ _ 0) in Ek. rewrite seq_nth in Ek by assumption. lia.
Qed.
Lemma slow_uniform n z lowz highz : 2 <= n -> (lowz < highz)%Q -> exists g a k x, slow_grid n z lowz highz = Ok g /\
  uniform n a ((highz - lowz) / (qn n - 1)) g /\ nth_error g k = Some x /\ (x == z)%Q.
Proof.
  intros Hn Hlt. unfold slow_grid. set (h := ((highz - lowz) / (qn n - 1))%Q). set (bins := map (fun i => (h * qn i + lowz)%Q) (seq 0 n)).
  assert (Lb : List.length bins = n) by (unfold bins; rewrite map_length, seq_length; reflexivity).
  destruct (argmin_ok (map (fun b => Qabs (b - z)) bins)) as (m & x & Em & Hx & _).
  { intros C. apply (f_equal (@List.length Q)) in C. rewrite map_length in C. cbn in C. lia. }
  rewrite Em. cbn [bind]. rewrite py_index_nat.
  assert (Hm : m < List.length bins) by (rewrite <- (map_length (fun b => Qabs (b - z)) bins); apply nth_error_Some; congruence).
  destruct (nth_error bins m) as [bm|] eqn:Eb; [|apply nth_error_None in Eb; lia]. cbn [bind].
  exists (map (fun b => (b - (bm - z))%Q) bins), (lowz - (bm - z))%Q, m, (bm - (bm - z))%Q.
  split; [reflexivity|]. pose proof (qn_lt 1 n ltac:(lia)) as Hq. change (qn 1) with 1%Q in Hq.
  split; [|split; [rewrite nth_error_map, Eb; reflexivity|ring]].
  split; [apply Qlt_shift_div_l; lra|]. split; [rewrite map_length; exact Lb|].
  intros i y Hy. rewrite nth_error_map in Hy. destruct (nth_error bins i) as [b|] eqn:Ebi; [|discriminate]. injection Hy as <-.
  unfold bins in Ebi. rewrite nth_error_map in Ebi. destruct (nth_error (seq 0 n) i) as [k|] eqn:Ek; [|discriminate]. injection Ebi as <-.
  apply seq_nth_error in Ek. subst k. change (inject_Z (Z.of_nat i)) with (qn i). ring.
Qed.

(** p(z): non-negative, unit integral *)
Lemma pz_normal ex lk vf simps bins : homogeneous simps ->
  ~ (simps (map (fun b => (ex (lk b - Qlmax (map lk bins)) * vf b)%Q) bins) bins == 0)%Q ->
  (simps (pz_values ex lk vf simps bins) bins == 1)%Q.
Proof. intros H Hn. unfold pz_values. cbv zeta. unfold homogeneous in H. etransitivity; [apply H|]. field. exact Hn. Qed.
Lemma pz_nonneg ex lk vf simps bins p : (forall x, 0 < ex x)%Q -> (forall x, 0 <= vf x)%Q ->
  (0 < simps (map (fun b => (ex (lk b - Qlmax (map lk bins)) * vf b)%Q) bins) bins)%Q ->
  In p (pz_values ex lk vf simps bins) -> (0 <= p)%Q.
Proof.
  intros He Hv Hs Hp. unfold pz_values in Hp. cbv zeta in Hp. apply in_map_iff in Hp. destruct Hp as [r [<- Hr]].
  apply in_map_iff in Hr. destruct Hr as [b [<- _]]. apply Qle_shift_div_l; [exact Hs|]. rewrite Qmult_0_l.
  specialize (He (lk b - Qlmax (map lk bins))%Q). specialize (Hv b). nra.
Qed.
