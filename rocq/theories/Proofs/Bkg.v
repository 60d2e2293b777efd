From Coq Require Import Qround Qabs Sorting.Sorted Lqa.
From Verif.Base Require Import Py PyLemmas.
From Verif.Model Require Import Bkg.
From Verif.Spec Require Import Bkg.

Lemma SSlt_le l : StronglySorted Qlt l -> StronglySorted Qle l.
Proof. induction 1; constructor; [assumption|]. eapply Forall_impl; [|eassumption]. intros; apply Qlt_le_weak; assumption. Qed.

Lemma ss_left_len l x : ss_left l x <= List.length l.
Proof. apply prefix_len_le. Qed.

Lemma py_index_nat {A} (l : list A) i x : nth_error l i = Some x -> py_index l (Z.of_nat i) = Ok x.
Proof.
  intros H. assert (i < List.length l) by (apply nth_error_Some; congruence). unfold py_index.
  destruct (Z.ltb_spec (Z.of_nat i) 0); [lia|]. cbn [orb].
  destruct (Z.ltb_spec (Z.of_nat i) 0); [lia|]. destruct (Z.leb_spec (Z.of_nat (List.length l)) (Z.of_nat i)); [lia|].
  cbn [orb]. rewrite Nat2Z.id, H. reflexivity.
Qed.
Lemma py_index_last {A} (l : list A) x : nth_error l (List.length l - 1) = Some x -> py_index l (-1) = Ok x.
Proof.
  intros H. assert (List.length l - 1 < List.length l) by (apply nth_error_Some; congruence). unfold py_index.
  change (-1 <? 0)%Z with true. cbv iota. destruct (Z.ltb_spec (-1 + Z.of_nat (List.length l)) 0); [lia|].
  destruct (Z.leb_spec (Z.of_nat (List.length l)) (-1 + Z.of_nat (List.length l))); [lia|]. cbn [orb].
  replace (Z.to_nat (-1 + Z.of_nat (List.length l))) with (List.length l - 1) by lia. rewrite H. reflexivity.
Qed.
Lemma nth_ex {A} (l : list A) i : i < List.length l -> exists x, nth_error l i = Some x.
Proof. intros H. destruct (nth_error l i) eqn:E; [eauto|]. apply nth_error_None in E. lia. Qed.

Lemma cell3_ex b zs i j k : bkg_ok b zs -> i < List.length (b_mag b) -> j < List.length (b_chi b) -> k < List.length (b_z b) ->
  exists pl row v, nth_error (b_sig b) i = Some pl /\ nth_error pl j = Some row /\ nth_error row k = Some v.
Proof.
  intros [] Hi Hj Hk. destruct (nth_ex (b_sig b) i ltac:(lia)) as (pl & Hpl). pose proof (nth_error_In _ _ Hpl) as Hin.
  destruct (nth_ex pl j) as (row & Hrow); [rewrite bo_sig2; auto|]. pose proof (nth_error_In _ _ Hrow) as Hin2.
  destruct (nth_ex row k) as (v & Hv); [erewrite bo_sig3; eauto|]. eauto 8.
Qed.

(** in_bin from ss_left *)
Lemma in_bin_ss bins size x a0 an : StronglySorted Qlt bins ->
  nth_error bins 0 = Some a0 -> nth_error bins (List.length bins - 1) = Some an ->
  (a0 < x)%Q -> (x <= an + size)%Q -> 
  0 < ss_left bins x /\ in_bin bins size x (ss_left bins x - 1).
Proof.
  intros Hs H0 Hn Hlt Hle. pose proof (SSlt_le _ Hs) as Hs'. 
  assert (Hp : 0 < ss_left bins x) by (apply (ss_left_spec _ _ _ _ Hs' H0); exact Hlt).
  split; [exact Hp|]. pose proof (ss_left_len bins x) as Hl.
  destruct (nth_ex bins (ss_left bins x - 1) ltac:(lia)) as (a & Ha). exists a. split; [exact Ha|]. split.
  - apply (ss_left_spec _ x _ _ Hs' Ha). lia.
  - replace (S (ss_left bins x - 1)) with (ss_left bins x) by lia.
    destruct (nth_error bins (ss_left bins x)) as [b|] eqn:Eb.
    + apply Qnot_lt_le. intros Hc. apply (ss_left_spec _ x _ _ Hs' Eb) in Hc. lia.
    + apply nth_error_None in Eb. replace (ss_left bins x - 1) with (List.length bins - 1) in Ha by lia.
      rewrite Hn in Ha. injection Ha as <-. exact Hle.
Qed.
Lemma in_bin_unique bins size x i j : StronglySorted Qlt bins -> in_bin bins size x i -> in_bin bins size x j -> i = j.
Proof.
  intros Hs (a & Ha & H1 & H2) (b & Hb & H3 & H4).
  destruct (Nat.lt_trichotomy i j) as [H|[H|H]]; [|exact H|]; exfalso.
  - assert (Hj : j < List.length bins) by (apply nth_error_Some; congruence).
    destruct (nth_ex bins (S i) ltac:(lia)) as (c & Hc). rewrite Hc in H2.
    destruct (Nat.eq_dec (S i) j) as [<-|]; [rewrite Hc in Hb; injection Hb as <-; lra|].
    pose proof (SS_nth _ _ _ _ _ _ Hs (ltac:(lia) : S i < j) Hc Hb). lra.
  - assert (Hj : i < List.length bins) by (apply nth_error_Some; congruence).
    destruct (nth_ex bins (S j) ltac:(lia)) as (c & Hc). rewrite Hc in H4.
    destruct (Nat.eq_dec (S j) i) as [<-|]; [rewrite Hc in Ha; injection Ha as <-; lra|].
    pose proof (SS_nth _ _ _ _ _ _ Hs (ltac:(lia) : S j < i) Hc Ha). lra.
Qed.

(** np_round *)
Lemma np_round_spec q : (Qabs (q - inject_Z (np_round q)) <= 1#2)%Q.
Proof.
  unfold np_round. set (f := Qfloor q). pose proof (Qfloor_le q) as H1. pose proof (Qlt_floor q) as H2. fold f in H1, H2.
  rewrite inject_Z_plus in H2. change (inject_Z 1) with 1%Q in H2.
  apply Qabs_Qle_condition.
  destruct (Qlt_bool (q - inject_Z f) (1#2)) eqn:E1.
  - apply Qlt_bool_iff in E1. split; lra.
  - apply Qlt_bool_false in E1. destruct (Qlt_bool (1#2) (q - inject_Z f)) eqn:E2.
    + rewrite inject_Z_plus. change (inject_Z 1) with 1%Q. split; lra.
    + apply Qlt_bool_false in E2. destruct (Z.even f); [split; lra|].
      rewrite inject_Z_plus. change (inject_Z 1) with 1%Q. split; lra.
Qed.

Lemma uniform_nth bins size : uniform bins size -> forall i a0 a, nth_error bins 0 = Some a0 -> nth_error bins i = Some a ->
  (a == a0 + inject_Z (Z.of_nat i) * size)%Q.
Proof.
  intros [Hp Hu] i a0. induction i as [|i IH]; intros a H0 Ha.
  - rewrite H0 in Ha. injection Ha as <-. change (inject_Z (Z.of_nat 0)) with 0%Q. ring.
  - assert (i < List.length bins) by (assert (S i < List.length bins) by (apply nth_error_Some; congruence); lia).
    destruct (nth_ex bins i H) as (b & Hb). rewrite (Hu _ _ _ Hb Ha), (IH _ H0 Hb).
    rewrite Nat2Z.inj_succ. unfold Z.succ. rewrite inject_Z_plus. change (inject_Z 1) with 1%Q. ring.
Qed.
Lemma uniform_sorted bins size : uniform bins size -> StronglySorted Qlt bins.
Proof.
  intros [Hp Hu]. apply Sorted_StronglySorted; [intros x y z; apply Qlt_trans|].
  induction bins as [|a l IH]; constructor.
  - apply IH. intros i x y Hx Hy. apply (Hu (S i)); assumption.
  - destruct l as [|b l]; constructor. pose proof (Hu 0 a b eq_refl eq_refl). lra.
Qed.


Lemma nearest_round zs size z z0 z1 : uniform zs size -> 
  nth_error zs 0 = Some z0 -> nth_error zs 1 = Some z1 ->
  nearest zs z (Z.to_nat (clipZ 0 (Z.of_nat (List.length zs) - 1) (np_round ((z - z0) / (z1 - z0))%Q))).
Proof.
  intros Hu H0 H1. pose proof (proj1 Hu) as Hsz. pose proof (uniform_nth _ _ Hu) as Hn.
  assert (Hd : (z1 - z0 == size)%Q). { rewrite (Hn 1 z0 z1 H0 H1). change (inject_Z (Z.of_nat 1)) with 1%Q. ring. }
  set (r := np_round ((z - z0) / (z1 - z0))%Q).
  set (n := Z.of_nat (List.length zs)).
  assert (Hn1 : (1 < n)%Z). { assert (1 < List.length zs) by (apply nth_error_Some; congruence). lia. }
  set (k := clipZ 0 (n - 1) r). assert (Hk : (0 <= k <= n - 1)%Z) by (unfold k, clipZ; lia).
  destruct (nth_ex zs (Z.to_nat k)) as (zk & Hzk); [lia|]. exists zk. split; [exact Hzk|].
  intros k' z' Hz'. 
  assert (Hk' : (0 <= Z.of_nat k' <= n - 1)%Z). { assert (k' < List.length zs) by (apply nth_error_Some; congruence). lia. }
  pose proof (Hn _ _ _ H0 Hzk) as E1. pose proof (Hn _ _ _ H0 Hz') as E2. rewrite Z2Nat.id in E1 by lia.
  set (m := Z.of_nat k') in *.
  set (q := ((z - z0) / (z1 - z0))%Q) in *.
  assert (Hz : (z == z0 + q * size)%Q).
  { unfold q. rewrite Hd. field. intros E; rewrite E in Hsz; discriminate. }
  assert (Habs : (Qabs (q - inject_Z k) <= Qabs (q - inject_Z m))%Q).
  { pose proof (np_round_spec q) as Hr. fold r in Hr. apply Qabs_Qle_condition in Hr.
    assert (Hcase : (k = r \/ (r < k /\ k = 0) \/ (k < r /\ k = n - 1))%Z) by (unfold k, clipZ; lia).
    apply Qabs_case; intros Ha; apply Qabs_case; intros Hb.
    - (* both above *)
      apply Qplus_le_l with (inject_Z k - q)%Q. 
      destruct Hcase as [Hc|[[Hc1 Hc2]|[Hc1 Hc2]]].
      + destruct (Z_le_gt_dec m k) as [Hm|Hm]; [rewrite Zle_Qle in Hm; lra|].
        assert (Hm' : (k + 1 <= m)%Z) by lia. rewrite Zle_Qle, inject_Z_plus in Hm'. change (inject_Z 1) with 1%Q in Hm'.
        rewrite <- Hc in Hr. lra.
      + assert (Hm' : (k + 1 <= 0)%Z \/ (m = 0)%Z \/ (1 <= m)%Z) by lia. destruct Hm' as [Hm'|[Hm'|Hm']]; [lia|rewrite Hm', Hc2; lra|].
        assert (Hrr : (r + 1 <= 0)%Z) by lia. rewrite Zle_Qle, inject_Z_plus in Hrr. change (inject_Z 1) with 1%Q in Hrr.
        rewrite Zle_Qle in Hm'. change (inject_Z 1) with 1%Q in Hm'. change (inject_Z 0) with 0%Q in *. lra.
      + assert (Hm : (m <= k)%Z) by lia. rewrite Zle_Qle in Hm. lra.
    - destruct Hcase as [Hc|[[Hc1 Hc2]|[Hc1 Hc2]]].
      + assert (Hm : (m <= k \/ k + 1 <= m)%Z) by lia. destruct Hm as [Hm|Hm]; rewrite Zle_Qle in Hm; [lra|].
        rewrite inject_Z_plus in Hm. change (inject_Z 1) with 1%Q in Hm. rewrite <- Hc in Hr. lra.
      + assert (Hrr : (r + 1 <= 0)%Z) by lia. rewrite Zle_Qle, inject_Z_plus in Hrr. change (inject_Z 1) with 1%Q in Hrr.
        rewrite Hc2 in *. change (inject_Z 0) with 0%Q in *. lra.
      + assert (Hm : (m <= k)%Z) by lia. rewrite Zle_Qle in Hm. lra.
    - destruct Hcase as [Hc|[[Hc1 Hc2]|[Hc1 Hc2]]].
      + assert (Hm : (k <= m \/ m + 1 <= k)%Z) by lia. destruct Hm as [Hm|Hm]; rewrite Zle_Qle in Hm; [lra|].
        rewrite inject_Z_plus in Hm. change (inject_Z 1) with 1%Q in Hm. rewrite <- Hc in Hr. lra.
      + assert (Hm : (k <= m)%Z) by lia. rewrite Zle_Qle in Hm. lra.
      + assert (Hrr : (k + 1 <= r)%Z) by lia. rewrite Zle_Qle, inject_Z_plus in Hrr. change (inject_Z 1) with 1%Q in Hrr. lra.
    - destruct Hcase as [Hc|[[Hc1 Hc2]|[Hc1 Hc2]]].
      + assert (Hm : (k <= m \/ m + 1 <= k)%Z) by lia. destruct Hm as [Hm|Hm]; rewrite Zle_Qle in Hm; [lra|].
        rewrite inject_Z_plus in Hm. change (inject_Z 1) with 1%Q in Hm. rewrite <- Hc in Hr. lra.
      + assert (Hm : (k <= m)%Z) by lia. rewrite Zle_Qle in Hm. lra.
      + assert (Hrr : (k + 1 <= r)%Z) by lia. rewrite Zle_Qle, inject_Z_plus in Hrr. change (inject_Z 1) with 1%Q in Hrr. lra. }
  assert (F1 : (z - zk == (q - inject_Z k) * size)%Q) by (rewrite Hz, E1; ring).
  assert (F2 : (z - z' == (q - inject_Z m) * size)%Q) by (rewrite Hz, E2; ring).
  rewrite F1, F2, !Qabs_Qmult. apply Qmult_le_compat_r; [exact Habs|apply Qabs_nonneg].
Qed.

Definition finish (allow0 bad : bool) (v : Q) : lval :=
  if bad then Inf else if negb allow0 && Qeq_bool v 0 then Inf else Val v.
Lemma finish_reported allow0 v : reported allow0 v (finish allow0 false v).
Proof.
  unfold finish, reported. destruct (Qeq_bool v 0) eqn:E.
  - apply Qeq_bool_iff in E. destruct allow0; cbn; auto.
  - apply Qeq_bool_neq in E. rewrite andb_false_r. auto.
Qed.

Definition badchi b chisq c0 cn := Qlt_bool chisq c0 || Qlt_bool (cn + b_chisize b)%Q chisq.
Definition badmag b refmag m0 mn := Qle_bool refmag m0 || Qlt_bool (mn + b_magsize b)%Q refmag.

Lemma first_ex {A} (l : list A) : l <> [] -> exists a, nth_error l 0 = Some a.
Proof. destruct l; [congruence|]. intros _. eexists; reflexivity. Qed.
Lemma last_ex {A} (l : list A) : l <> [] -> exists a, nth_error l (List.length l - 1) = Some a.
Proof. intros H. apply nth_ex. destruct l; [congruence|cbn; lia]. Qed.
Lemma len_pos {A} (l : list A) : l <> [] -> 0 < List.length l.
Proof. destruct l; [congruence|cbn; lia]. Qed.

(** evaluation with the (possibly wrapped) chisq index [j] *)
Lemma lookup_eval b zs allow0 z chisq refmag c0 cn m0 mn i j : bkg_ok b zs ->
  nth_error (b_chi b) 0 = Some c0 -> nth_error (b_chi b) (List.length (b_chi b) - 1) = Some cn ->
  nth_error (b_mag b) 0 = Some m0 -> nth_error (b_mag b) (List.length (b_mag b) - 1) = Some mn ->
  (if badmag b refmag m0 mn then i = 0 else i = ss_left (b_mag b) refmag - 1 /\ 0 < ss_left (b_mag b) refmag) ->
  (if badchi b chisq c0 cn then j = 0
   else (j = ss_left (b_chi b) chisq - 1 /\ 0 < ss_left (b_chi b) chisq)
        \/ (ss_left (b_chi b) chisq = 0 /\ j = List.length (b_chi b) - 1)) ->
  exists k v, nearest (b_z b) z k /\ cell3 (b_sig b) i j k = Some v /\
    sigma_g_lookup b allow0 z chisq refmag = Ok (finish allow0 (badchi b chisq c0 cn || badmag b refmag m0 mn) v).
Proof.
  intros Hok Hc0 Hcn Hm0 Hmn Hi Hj. pose proof (bo_z2 _ _ Hok) as Hz2.
  destruct (nth_ex (b_z b) 0 ltac:(lia)) as (z0 & Hz0). destruct (nth_ex (b_z b) 1 ltac:(lia)) as (z1 & Hz1).
  pose proof (nearest_round (b_z b) zs z z0 z1 (bo_z _ _ Hok) Hz0 Hz1) as Hnear.
  set (zi := clipZ 0 (Z.of_nat (List.length (b_z b)) - 1) (np_round ((z - z0) / (z1 - z0))%Q)) in *.
  assert (Hzi : (0 <= zi <= Z.of_nat (List.length (b_z b)) - 1)%Z) by (unfold zi, clipZ; lia).
  pose proof (len_pos _ (bo_chi1 _ _ Hok)) as Lc. pose proof (len_pos _ (bo_mag1 _ _ Hok)) as Lm.
  pose proof (ss_left_len (b_chi b) chisq) as Sc. pose proof (ss_left_len (b_mag b) refmag) as Sm.
  assert (Li : i < List.length (b_mag b)) by (destruct (badmag b refmag m0 mn); lia).
  assert (Lj : j < List.length (b_chi b)) by (destruct (badchi b chisq c0 cn); lia).
  destruct (cell3_ex b zs i j (Z.to_nat zi) Hok Li Lj ltac:(lia)) as (pl & row & v & Hpl & Hrow & Hv).
  exists (Z.to_nat zi), v. split; [exact Hnear|]. split; [unfold cell3, cell2; rewrite Hpl, Hrow; exact Hv|].
  unfold sigma_g_lookup.
  change (py_index (b_z b) 0) with (py_index (b_z b) (Z.of_nat 0)). rewrite (py_index_nat _ _ _ Hz0). cbn [bind].
  change (py_index (b_z b) 1) with (py_index (b_z b) (Z.of_nat 1)). rewrite (py_index_nat _ _ _ Hz1). cbn [bind].
  change (py_index (b_chi b) 0) with (py_index (b_chi b) (Z.of_nat 0)). rewrite (py_index_nat _ _ _ Hc0). cbn [bind].
  rewrite (py_index_last _ _ Hcn). cbn [bind].
  change (py_index (b_mag b) 0) with (py_index (b_mag b) (Z.of_nat 0)). rewrite (py_index_nat _ _ _ Hm0). cbn [bind].
  rewrite (py_index_last _ _ Hmn). cbn [bind]. fold zi.
  change (Qlt_bool chisq c0 || Qlt_bool (cn + b_chisize b) chisq) with (badchi b chisq c0 cn).
  change (Qle_bool refmag m0 || Qlt_bool (mn + b_magsize b) refmag) with (badmag b refmag m0 mn).
  assert (Emi : (if badmag b refmag m0 mn then 0%Z else (Z.of_nat (ss_left (b_mag b) refmag) - 1)%Z) = Z.of_nat i)
    by (destruct (badmag b refmag m0 mn); lia).
  rewrite Emi, (py_index_nat _ _ _ Hpl). cbn [bind].
  assert (Erow : py_index pl (if badchi b chisq c0 cn then 0%Z else (Z.of_nat (ss_left (b_chi b) chisq) - 1)%Z) = Ok row).
  { destruct (badchi b chisq c0 cn).
    - subst j. exact (py_index_nat _ _ _ Hrow).
    - destruct Hj as [[-> Hp]|[E ->]].
      + replace (Z.of_nat (ss_left (b_chi b) chisq) - 1)%Z with (Z.of_nat (ss_left (b_chi b) chisq - 1)) by lia.
        exact (py_index_nat _ _ _ Hrow).
      + rewrite E. change (Z.of_nat 0 - 1)%Z with (-1)%Z. apply py_index_last.
        rewrite (bo_sig2 _ _ Hok); [exact Hrow|]. eapply nth_error_In; eauto. }
  rewrite Erow. cbn [bind].
  replace zi with (Z.of_nat (Z.to_nat zi)) by lia. rewrite (py_index_nat _ _ _ Hv). cbn [bind].
  unfold finish. destruct (_ || _); [reflexivity|]. destruct (_ && _); reflexivity.
Qed.

Lemma bad_outside b chisq refmag c0 cn m0 mn :
  nth_error (b_chi b) 0 = Some c0 -> nth_error (b_chi b) (List.length (b_chi b) - 1) = Some cn ->
  nth_error (b_mag b) 0 = Some m0 -> nth_error (b_mag b) (List.length (b_mag b) - 1) = Some mn ->
  badchi b chisq c0 cn || badmag b refmag m0 mn = true <-> outside b chisq refmag.
Proof.
  intros Hc0 Hcn Hm0 Hmn. unfold badchi, badmag, outside, below, above, at_lower_edge.
  rewrite !orb_true_iff, !Qlt_bool_iff, Qle_bool_iff.
  split.
  - intros [[H|H]|[H|H]]; [left; eauto|right; left; eauto| |right; right; right; right; eauto].
    destruct (Qlt_le_dec refmag m0); [right; right; left; eauto|]. right; right; right; left. exists m0. split; [exact Hm0|lra].
  - intros [(a & Ha & H)|[(a & Ha & H)|[(a & Ha & H)|[(a & Ha & H)|(a & Ha & H)]]]].
    + rewrite Hc0 in Ha; injection Ha as <-; auto.
    + rewrite Hcn in Ha; injection Ha as <-; auto.
    + rewrite Hm0 in Ha; injection Ha as <-. right; left; lra.
    + rewrite Hm0 in Ha; injection Ha as <-. right; left; lra.
    + rewrite Hmn in Ha; injection Ha as <-; auto.
Qed.

Lemma lookup_general b zs allow0 z chisq refmag : bkg_ok b zs ->
  exists r, sigma_g_lookup b allow0 z chisq refmag = Ok r /\
    (outside b chisq refmag -> r = Inf) /\
    (~ outside b chisq refmag -> exists i j k v,
       in_bin (b_mag b) (b_magsize b) refmag i /\ nearest (b_z b) z k /\
       cell3 (b_sig b) i j k = Some v /\ reported allow0 v r /\
       ((~ at_lower_edge (b_chi b) chisq /\ in_bin (b_chi b) (b_chisize b) chisq j) \/
        (at_lower_edge (b_chi b) chisq /\ j = List.length (b_chi b) - 1))).
Proof.
  intros Hok. destruct (bo_sizes _ _ Hok) as [Hs1 Hs2]. pose proof (bo_chi _ _ Hok) as Hsc. pose proof (bo_mag _ _ Hok) as Hsm.
  destruct (first_ex _ (bo_chi1 _ _ Hok)) as (c0 & Hc0). destruct (last_ex _ (bo_chi1 _ _ Hok)) as (cn & Hcn).
  destruct (first_ex _ (bo_mag1 _ _ Hok)) as (m0 & Hm0). destruct (last_ex _ (bo_mag1 _ _ Hok)) as (mn & Hmn).
  pose proof (bad_outside b chisq refmag c0 cn m0 mn Hc0 Hcn Hm0 Hmn) as Hbo.
  destruct (badchi b chisq c0 cn) eqn:Ebc; destruct (badmag b refmag m0 mn) eqn:Ebm; cbn [orb] in Hbo.
  - destruct (lookup_eval b zs allow0 z chisq refmag c0 cn m0 mn 0 0 Hok Hc0 Hcn Hm0 Hmn) as (k & v & Hk & Hv & E);
      rewrite ?Ebc, ?Ebm in *; auto. eexists; split; [exact E|]. split; [reflexivity|]. intros H; exfalso; apply H, Hbo; reflexivity.
  - assert (Hin : 0 < ss_left (b_mag b) refmag /\ in_bin (b_mag b) (b_magsize b) refmag (ss_left (b_mag b) refmag - 1)).
    { unfold badmag in Ebm. apply orb_false_iff in Ebm. destruct Ebm as [E1 E2]. apply Qle_bool_false in E1. apply Qlt_bool_false in E2.
      eapply in_bin_ss; eauto. }
    destruct (lookup_eval b zs allow0 z chisq refmag c0 cn m0 mn (ss_left (b_mag b) refmag - 1) 0 Hok Hc0 Hcn Hm0 Hmn) as (k & v & Hk & Hv & E);
      rewrite ?Ebc, ?Ebm in *; auto; [tauto|]. eexists; split; [exact E|]. split; [reflexivity|]. intros H; exfalso; apply H, Hbo; reflexivity.
  - assert (exists j, (j = ss_left (b_chi b) chisq - 1 /\ 0 < ss_left (b_chi b) chisq)
        \/ (ss_left (b_chi b) chisq = 0 /\ j = List.length (b_chi b) - 1)) as (j & Hj).
    { destruct (Nat.eq_dec (ss_left (b_chi b) chisq) 0); eexists; [right; eauto|left; split; [reflexivity|lia]]. }
    destruct (lookup_eval b zs allow0 z chisq refmag c0 cn m0 mn 0 j Hok Hc0 Hcn Hm0 Hmn) as (k & v & Hk & Hv & E);
      rewrite ?Ebc, ?Ebm in *; auto. eexists; split; [exact E|]. split; [reflexivity|]. intros H; exfalso; apply H, Hbo; reflexivity.
  - assert (Hin : 0 < ss_left (b_mag b) refmag /\ in_bin (b_mag b) (b_magsize b) refmag (ss_left (b_mag b) refmag - 1)).
    { unfold badmag in Ebm. apply orb_false_iff in Ebm. destruct Ebm as [E1 E2]. apply Qle_bool_false in E1. apply Qlt_bool_false in E2.
      eapply in_bin_ss; eauto. }
    destruct Hin as [Hp Hin].
    unfold badchi in Ebc. pose proof Ebc as Ebc'. apply orb_false_iff in Ebc'. destruct Ebc' as [E1 E2].
    apply Qlt_bool_false in E1, E2.
    assert (exists j, ((j = ss_left (b_chi b) chisq - 1 /\ 0 < ss_left (b_chi b) chisq)
        \/ (ss_left (b_chi b) chisq = 0 /\ j = List.length (b_chi b) - 1)) /\
        ((~ at_lower_edge (b_chi b) chisq /\ in_bin (b_chi b) (b_chisize b) chisq j) \/
        (at_lower_edge (b_chi b) chisq /\ j = List.length (b_chi b) - 1))) as (j & Hj & Hcase).
    { destruct (Qlt_le_dec c0 chisq) as [Hlt|Hge].
      - destruct (in_bin_ss (b_chi b) (b_chisize b) chisq c0 cn) as [Ha Hb]; auto.
        exists (ss_left (b_chi b) chisq - 1). split; [auto|]. left. split; [|exact Hb].
        intros (a & Ha' & Heq). rewrite Hc0 in Ha'. injection Ha' as <-. lra.
      - exists (List.length (b_chi b) - 1). split.
        + right. split; [|reflexivity]. destruct (ss_left (b_chi b) chisq) eqn:E; [reflexivity|].
          assert (c0 < chisq)%Q; [|lra]. apply (ss_left_spec _ chisq 0 c0 (SSlt_le _ (bo_chi _ _ Hok)) Hc0). lia.
        + right. split; [|reflexivity]. exists c0. split; [exact Hc0|lra]. }
    fold (badchi b chisq c0 cn) in Ebc.
    destruct (lookup_eval b zs allow0 z chisq refmag c0 cn m0 mn (ss_left (b_mag b) refmag - 1) j Hok Hc0 Hcn Hm0 Hmn) as (k & v & Hk & Hv & E);
      rewrite ?Ebc, ?Ebm in *; auto. cbn [orb] in E.
    eexists; split; [exact E|]. split; [intros H; apply Hbo in H; discriminate|].
    intros _. exists (ss_left (b_mag b) refmag - 1), j, k, v. split; [exact Hin|]. split; [exact Hk|]. split; [exact Hv|].
    split; [apply finish_reported|exact Hcase].
Qed.

(** ** zred background *)
Lemma ss_left_zero bins x a0 : StronglySorted Qlt bins -> nth_error bins 0 = Some a0 -> (ss_left bins x = 0 <-> (x <= a0)%Q).
Proof.
  intros Hs H0. pose proof (ss_left_spec _ x 0 a0 (SSlt_le _ Hs) H0) as H. split; intros E.
  - apply Qnot_lt_le. intros Hc. apply H in Hc. lia.
  - destruct (ss_left bins x) eqn:E'; [reflexivity|]. assert (a0 < x)%Q by (apply H; lia). lra.
Qed.
Lemma open_bin_ss bins x a0 : StronglySorted Qlt bins -> nth_error bins 0 = Some a0 -> (a0 < x)%Q ->
  0 < ss_left bins x /\ open_bin bins x (ss_left bins x - 1).
Proof.
  intros Hs H0 Hlt. pose proof (SSlt_le _ Hs) as Hs'.
  assert (Hp : 0 < ss_left bins x) by (apply (ss_left_spec _ _ _ _ Hs' H0); exact Hlt).
  split; [exact Hp|]. pose proof (ss_left_len bins x) as Hl.
  destruct (nth_ex bins (ss_left bins x - 1) ltac:(lia)) as (a & Ha). exists a. split; [exact Ha|]. split.
  - apply (ss_left_spec _ x _ _ Hs' Ha). lia.
  - replace (S (ss_left bins x - 1)) with (ss_left bins x) by lia. intros b Eb.
    apply Qnot_lt_le. intros Hc. apply (ss_left_spec _ x _ _ Hs' Eb) in Hc. lia.
Qed.
Lemma cell2_ex (t : list (list Q)) i j n m : List.length t = n -> (forall r, In r t -> List.length r = m) -> i < n -> j < m ->
  exists row v, nth_error t i = Some row /\ nth_error row j = Some v.
Proof.
  intros H1 H2 Hi Hj. destruct (nth_ex t i ltac:(lia)) as (row & Hr). destruct (nth_ex row j) as (v & Hv); [|eauto].
  rewrite H2; [exact Hj|]. eapply nth_error_In; eauto.
Qed.

Lemma zred_general b zred refmag z0 m0 : zbkg_ok b ->
  nth_error (zb_z b) 0 = Some z0 -> nth_error (zb_mag b) 0 = Some m0 ->
  exists r, zred_lookup b zred refmag = Ok r /\
   ((zred <= z0 \/ refmag <= m0)%Q -> r = Inf) /\
   ((z0 < zred /\ m0 < refmag)%Q -> exists i j v, open_bin (zb_mag b) refmag i /\ open_bin (zb_z b) zred j /\
      cell2 (zb_sig b) i j = Some v /\ r = Val v).
Proof.
  intros Hok Hz0 Hm0. unfold zred_lookup.
  pose proof (ss_left_len (zb_z b) zred) as Lz. pose proof (ss_left_len (zb_mag b) refmag) as Lm.
  pose proof (len_pos _ (zo_z1 _ Hok)) as Pz. pose proof (len_pos _ (zo_mag1 _ Hok)) as Pm.
  set (sz := ss_left (zb_z b) zred) in *. set (sm := ss_left (zb_mag b) refmag) in *.
  assert (Ez : ((Z.of_nat sz - 1 <? 0) || (Z.of_nat (List.length (zb_z b)) <=? Z.of_nat sz - 1))%Z = (sz =? 0)).
  { destruct (Z.leb_spec (Z.of_nat (List.length (zb_z b))) (Z.of_nat sz - 1)); [lia|].
    destruct (Z.ltb_spec (Z.of_nat sz - 1) 0), (Nat.eqb_spec sz 0); cbn; lia. }
  assert (Em : ((Z.of_nat sm - 1 <? 0) || (Z.of_nat (List.length (zb_mag b)) <=? Z.of_nat sm - 1))%Z = (sm =? 0)).
  { destruct (Z.leb_spec (Z.of_nat (List.length (zb_mag b))) (Z.of_nat sm - 1)); [lia|].
    destruct (Z.ltb_spec (Z.of_nat sm - 1) 0), (Nat.eqb_spec sm 0); cbn; lia. }
  rewrite Ez, Em.
  assert (Ez2 : (if sz =? 0 then 0%Z else (Z.of_nat sz - 1)%Z) = Z.of_nat (sz - 1)) by (destruct (Nat.eqb_spec sz 0); lia).
  assert (Em2 : (if sm =? 0 then 0%Z else (Z.of_nat sm - 1)%Z) = Z.of_nat (sm - 1)) by (destruct (Nat.eqb_spec sm 0); lia).
  rewrite Ez2, Em2.
  destruct (cell2_ex (zb_sig b) (sm - 1) (sz - 1) _ _ (zo_sig _ Hok) (zo_sig2 _ Hok) ltac:(lia) ltac:(lia)) as (row & v & Hrow & Hv).
  rewrite (py_index_nat _ _ _ Hrow). cbn [bind]. rewrite (py_index_nat _ _ _ Hv). cbn [bind].
  eexists; split; [reflexivity|].
  pose proof (ss_left_zero _ zred _ (zo_z _ Hok) Hz0) as Zz. pose proof (ss_left_zero _ refmag _ (zo_mag _ Hok) Hm0) as Zm.
  fold sz in Zz. fold sm in Zm. split.
  - intros [H|H]; [apply Zz in H|apply Zm in H]; rewrite H; cbn [Nat.eqb orb]; rewrite ?orb_true_r; reflexivity.
  - intros [H1 H2].
    destruct (open_bin_ss _ _ _ (zo_z _ Hok) Hz0 H1) as [P1 B1]. destruct (open_bin_ss _ _ _ (zo_mag _ Hok) Hm0 H2) as [P2 B2].
    fold sz in P1, B1. fold sm in P2, B2.
    exists (sm - 1), (sz - 1), v. split; [exact B2|]. split; [exact B1|]. split; [unfold cell2; rewrite Hrow; exact Hv|].
    destruct (Nat.eqb_spec sz 0); [lia|]. destruct (Nat.eqb_spec sm 0); [lia|]. reflexivity.
Qed.

(** ** colour background *)
Lemma off_ss bins size x : uniform bins size -> 
  (forall i a, nth_error bins i = Some a -> (i < ss_left bins (x - size)%Q <-> (a + size < x)%Q)).
Proof.
  intros Hu i a Ha. rewrite (ss_left_spec _ (x - size)%Q i a (SSlt_le _ (uniform_sorted _ _ Hu)) Ha). split; intros; lra.
Qed.
Lemma uniform_bin bins size x a0 : uniform bins size -> nth_error bins 0 = Some a0 -> (a0 < x)%Q ->
  ss_left bins (x - size)%Q < List.length bins -> in_bin bins size x (ss_left bins (x - size)%Q).
Proof.
  intros Hu H0 Hlt Hl. set (i := ss_left bins (x - size)%Q) in *.
  destruct (nth_ex bins i Hl) as (a & Ha). exists a. split; [exact Ha|].
  pose proof (off_ss bins size x Hu i a Ha) as Hi. fold i in Hi.
  assert (Hle : (x <= a + size)%Q). { apply Qnot_lt_le. intros Hc. apply Hi in Hc. lia. }
  split.
  - destruct (Nat.eq_dec i 0) as [E|E]; [rewrite E, H0 in Ha; injection Ha as <-; exact Hlt|].
    destruct (nth_ex bins (i - 1) ltac:(lia)) as (p & Hp). pose proof (off_ss bins size x Hu (i - 1) p Hp) as Hi'. fold i in Hi'.
    assert (p + size < x)%Q by (apply Hi'; lia).
    pose proof (proj2 Hu (i - 1) p a Hp ltac:(replace (S (i - 1)) with i by lia; exact Ha)). lra.
  - destruct (nth_error bins (S i)) as [b|] eqn:Eb; [|exact Hle]. rewrite (proj2 Hu _ _ _ Ha Eb). exact Hle.
Qed.
Lemma uniform_above bins size x : uniform bins size -> bins <> [] ->
  (ss_left bins (x - size)%Q = List.length bins <-> above bins size x).
Proof.
  intros Hu Hne. destruct (last_ex _ Hne) as (an & Hn). pose proof (len_pos _ Hne).
  pose proof (off_ss bins size x Hu _ _ Hn) as Hi. pose proof (ss_left_len bins (x - size)%Q). split.
  - intros E. exists an. split; [exact Hn|]. apply Hi. lia.
  - intros (a & Ha & Hlt). rewrite Hn in Ha. injection Ha as <-. apply Hi in Hlt. lia.
Qed.
Lemma uniform_low bins size x a0 : uniform bins size -> nth_error bins 0 = Some a0 -> (x <= a0)%Q ->
  ss_left bins (x - size)%Q = 0.
Proof.
  intros Hu H0 Hle. pose proof (off_ss bins size x Hu 0 a0 H0) as Hi. pose proof (proj1 Hu).
  destruct (ss_left bins (x - size)%Q); [reflexivity|]. assert (a0 + size < x)%Q by (apply Hi; lia). lra.
Qed.

Lemma diag_general b col refmag c0 m0 : cbkg1_ok b ->
  nth_error (c1_col b) 0 = Some c0 -> nth_error (c1_mag b) 0 = Some m0 ->
  exists r, sigma_g_diagonal b col refmag = Ok r /\
   (above (c1_col b) (c1_size b) col \/ above (c1_mag b) (c1_msize b) refmag -> r = Inf) /\
   (~ (above (c1_col b) (c1_size b) col \/ above (c1_mag b) (c1_msize b) refmag) ->
     exists i j v, ((m0 < refmag)%Q /\ in_bin (c1_mag b) (c1_msize b) refmag i \/ (refmag <= m0)%Q /\ i = 0) /\
                   ((c0 < col)%Q /\ in_bin (c1_col b) (c1_size b) col j \/ (col <= c0)%Q /\ j = 0) /\
        cell2 (c1_sig b) i j = Some v /\ reported false v r).
Proof.
  intros Hok Hc0 Hm0. unfold sigma_g_diagonal.
  pose proof (ss_left_len (c1_col b) (col - c1_size b)%Q) as Lc. pose proof (ss_left_len (c1_mag b) (refmag - c1_msize b)%Q) as Lm.
  pose proof (len_pos _ (co_col1 _ Hok)) as Pc. pose proof (len_pos _ (co_mag1 _ Hok)) as Pm.
  pose proof (uniform_above _ _ col (co_col _ Hok) (co_col1 _ Hok)) as Ac. pose proof (uniform_above _ _ refmag (co_mag _ Hok) (co_mag1 _ Hok)) as Am.
  pose proof (uniform_low _ _ col c0 (co_col _ Hok) Hc0) as Wc. pose proof (uniform_low _ _ refmag m0 (co_mag _ Hok) Hm0) as Wm.
  pose proof (uniform_bin _ _ col c0 (co_col _ Hok) Hc0) as Bc. pose proof (uniform_bin _ _ refmag m0 (co_mag _ Hok) Hm0) as Bm.
  set (sc := ss_left (c1_col b) _) in *. set (sm := ss_left (c1_mag b) _) in *.
  set (nc := List.length (c1_col b)) in *. set (nm := List.length (c1_mag b)) in *.
  assert (Ec : ((Z.of_nat sc <? 0) || (Z.of_nat nc <=? Z.of_nat sc))%Z = (sc =? nc)).
  { destruct (Z.ltb_spec (Z.of_nat sc) 0); [lia|]. destruct (Z.leb_spec (Z.of_nat nc) (Z.of_nat sc)), (Nat.eqb_spec sc nc); cbn; lia. }
  assert (Em : ((Z.of_nat sm <? 0) || (Z.of_nat nm <=? Z.of_nat sm))%Z = (sm =? nm)).
  { destruct (Z.ltb_spec (Z.of_nat sm) 0); [lia|]. destruct (Z.leb_spec (Z.of_nat nm) (Z.of_nat sm)), (Nat.eqb_spec sm nm); cbn; lia. }
  rewrite Ec, Em.
  set (i := if sm =? nm then 0 else sm). set (j := if sc =? nc then 0 else sc).
  replace (if sm =? nm then 0%Z else Z.of_nat sm) with (Z.of_nat i) by (unfold i; destruct (sm =? nm); lia).
  replace (if sc =? nc then 0%Z else Z.of_nat sc) with (Z.of_nat j) by (unfold j; destruct (sc =? nc); lia).
  assert (Hi : i < nm) by (unfold i; destruct (Nat.eqb_spec sm nm); lia).
  assert (Hj : j < nc) by (unfold j; destruct (Nat.eqb_spec sc nc); lia).
  destruct (cell2_ex (c1_sig b) i j _ _ (co_sig _ Hok) (co_sig2 _ Hok) Hi Hj) as (row & v & Hrow & Hv).
  rewrite (py_index_nat _ _ _ Hrow). cbn [bind]. rewrite (py_index_nat _ _ _ Hv). cbn [bind].
  eexists; split; [reflexivity|]. split.
  - intros [H|H]; [apply Ac in H|apply Am in H]; rewrite H, Nat.eqb_refl; cbn [orb]; rewrite ?orb_true_r; reflexivity.
  - intros Hno. assert (Nc : sc <> nc) by (intros E; apply Hno; left; apply Ac, E). assert (Nm : sm <> nm) by (intros E; apply Hno; right; apply Am, E).
    unfold i, j in *. destruct (Nat.eqb_spec sm nm); [contradiction|]. destruct (Nat.eqb_spec sc nc); [contradiction|].
    exists sm, sc, v. split.
    { destruct (Qlt_le_dec m0 refmag) as [H|H]; [left; split; [exact H|apply Bm; [exact H|lia]]|right; split; [exact H|apply Wm, H]]. }
    split.
    { destruct (Qlt_le_dec c0 col) as [H|H]; [left; split; [exact H|apply Bc; [exact H|lia]]|right; split; [exact H|apply Wc, H]]. }
    split; [unfold cell2; rewrite Hrow; exact Hv|]. cbn [orb]. apply (finish_reported false).
Qed.

(** clipped index *)
Lemma off_index_spec bins size x a0 an : uniform bins size -> nth_error bins 0 = Some a0 ->
  nth_error bins (List.length bins - 1) = Some an ->
  exists i, off_index bins size x = Z.of_nat i /\ nearest_bin bins size x i.
Proof.
  intros Hu H0 Hn. assert (Hne : bins <> []) by (intros ->; discriminate). pose proof (len_pos _ Hne) as Hl.
  pose proof (ss_left_len bins (x - size)%Q) as Hs. unfold off_index, clipZ, nearest_bin.
  destruct (Nat.eq_dec (ss_left bins (x - size)%Q) (List.length bins)) as [E|E].
  - exists (List.length bins - 1). split; [lia|]. right; right. split; [|reflexivity].
    apply uniform_above; assumption.
  - exists (ss_left bins (x - size)%Q). split; [lia|]. destruct (Qlt_le_dec a0 x) as [H|H].
    + left. eapply uniform_bin; eauto. lia.
    + right; left. rewrite (uniform_low _ _ _ _ Hu H0 H). split; [|reflexivity]. exists a0. auto.
Qed.

Lemma off_value_spec b c1 c2 m : cbkg2_ok b ->
  exists i j1 j2 v n, nearest_bin (c2_mag b) (c2_msize b) m i /\ nearest_bin (c2_col1 b) (c2_size1 b) c1 j1 /\
    nearest_bin (c2_col2 b) (c2_size2 b) c2 j2 /\ cell3 (c2_bc b) i j2 j1 = Some v /\ nth_error (c2_n b) i = Some n /\
    off_value b c1 c2 m = Ok (v / n)%Q.
Proof.
  intros Hok.
  destruct (first_ex _ (d_mag1 _ Hok)) as (m0 & Hm0). destruct (last_ex _ (d_mag1 _ Hok)) as (mn & Hmn).
  destruct (first_ex _ (d_col11 _ Hok)) as (p0 & Hp0). destruct (last_ex _ (d_col11 _ Hok)) as (pn & Hpn).
  destruct (first_ex _ (d_col21 _ Hok)) as (q0 & Hq0). destruct (last_ex _ (d_col21 _ Hok)) as (qn & Hqn).
  destruct (off_index_spec _ _ m _ _ (d_mag _ Hok) Hm0 Hmn) as (i & Ei & Hi).
  destruct (off_index_spec _ _ c1 _ _ (d_col1 _ Hok) Hp0 Hpn) as (j1 & E1 & H1).
  destruct (off_index_spec _ _ c2 _ _ (d_col2 _ Hok) Hq0 Hqn) as (j2 & E2 & H2).
  assert (Hlt : forall bins size x k, bins <> [] -> nearest_bin bins size x k -> k < List.length bins).
  { intros bins size x k Hb [(a & Ha & _)|[[_ ->]|[_ ->]]]; [apply nth_error_Some; congruence|apply len_pos, Hb|pose proof (len_pos _ Hb); lia]. }
  pose proof (Hlt _ _ _ _ (d_mag1 _ Hok) Hi) as Li. pose proof (Hlt _ _ _ _ (d_col11 _ Hok) H1) as L1.
  pose proof (Hlt _ _ _ _ (d_col21 _ Hok) H2) as L2.
  destruct (nth_ex (c2_bc b) i) as (pl & Hpl); [rewrite (d_bc _ Hok); exact Li|]. pose proof (nth_error_In _ _ Hpl) as Ipl.
  destruct (nth_ex pl j2) as (row & Hrow); [rewrite (d_bc2 _ Hok) by exact Ipl; exact L2|]. pose proof (nth_error_In _ _ Hrow) as Irow.
  destruct (nth_ex row j1) as (v & Hv); [rewrite (d_bc3 _ Hok pl) by assumption; exact L1|].
  destruct (nth_ex (c2_n b) i) as (n & Hnn); [rewrite (d_n _ Hok); exact Li|].
  exists i, j1, j2, v, n. repeat split; auto.
  - unfold cell3, cell2. rewrite Hpl, Hrow. exact Hv.
  - unfold off_value. rewrite Ei, E1, E2, (py_index_nat _ _ _ Hpl). cbn [bind]. rewrite (py_index_nat _ _ _ Hrow). cbn [bind].
    rewrite (py_index_nat _ _ _ Hv). cbn [bind]. rewrite (py_index_nat _ _ _ Hnn). reflexivity.
Qed.

Lemma build_bkgs_get (exts : list ((Z * Z) * cbkg2)) : forall (f : Z -> option cbkg2) i j b, NoDup (map fst exts) -> 
  (forall p, In p (map fst exts) -> (0 <= fst p < 100)%Z /\ (0 <= snd p < 100)%Z) ->
  In ((i, j), b) exts ->
  fold_left (fun f e k => if (k =? fst (fst e) * 100 + snd (fst e))%Z then Some (snd e) else f k) exts f (i * 100 + j)%Z = Some b.
Proof.
  assert (Hskip : forall (exts : list ((Z * Z) * cbkg2)) (f : Z -> option cbkg2) i j, ~ In (i, j) (map fst exts) -> (0 <= i < 100)%Z -> (0 <= j < 100)%Z ->
    (forall p, In p (map (@fst (Z * Z) cbkg2) exts) -> (0 <= fst p < 100)%Z /\ (0 <= snd p < 100)%Z) ->
    fold_left (fun f e k => if (k =? fst (fst e) * 100 + snd (fst e))%Z then Some (snd e) else f k) exts f (i * 100 + j)%Z = f (i * 100 + j)%Z).
  { clear. induction exts as [|[[a c] b] l IH]; intros f i j Hn Hi Hj Hp; [reflexivity|]. cbn [fold_left map fst snd] in *.
    rewrite IH; [|intros H; apply Hn; right; exact H|exact Hi|exact Hj|intros p Hin; apply Hp; right; exact Hin].
    destruct (Z.eqb_spec (i * 100 + j) (a * 100 + c)); [|reflexivity]. destruct (Hp (a, c)) as [Ha Hc]; [left; reflexivity|].
    cbn [fst snd] in *. exfalso; apply Hn; left. f_equal; lia. }
  induction exts as [|[[a c] b'] l IH]; intros f i j b Hnd Hp Hin; [contradiction|]. cbn [fold_left map fst snd] in *.
  inversion Hnd as [|? ? Hni Hnd']; subst. destruct Hin as [[= -> -> ->]|Hin].
  - destruct (Hp (i, j)) as [Ha Hc]; [left; reflexivity|]. cbn [fst snd] in *.
    rewrite Hskip; [|exact Hni|exact Ha|exact Hc|intros p Hin; apply Hp; right; exact Hin]. rewrite Z.eqb_refl. reflexivity.
  - apply IH; auto. intros p H; apply Hp; right; exact H.
Qed.
Lemma offdiag_value exts i j b c1 c2 m dr : NoDup (map fst exts) ->
  (forall p, In p (map fst exts) -> (0 <= fst p < 100)%Z /\ (0 <= snd p < 100)%Z) ->
  In ((i, j), b) exts -> lookup_offdiag (build_bkgs exts) i j c1 c2 m dr = off_value b c1 c2 m.
Proof.
  intros Hnd Hp Hin. unfold lookup_offdiag. pose proof (build_bkgs_get exts (fun _ => None) i j b Hnd Hp Hin) as E.
  fold (build_bkgs exts) in E. rewrite E, E. reflexivity.
Qed.
Lemma offdiag_swapped exts i j b c1 c2 m dr : NoDup (map fst exts) ->
  (forall p, In p (map fst exts) -> (0 <= fst p < 100)%Z /\ (0 <= snd p < 100)%Z) ->
  In ((i, j), b) exts -> build_bkgs exts (j * 100 + i)%Z = None ->
  lookup_offdiag (build_bkgs exts) j i c1 c2 m dr = off_value b c1 c2 m.
Proof.
  intros Hnd Hp Hin Hno. unfold lookup_offdiag. rewrite Hno.
  pose proof (build_bkgs_get exts (fun _ => None) i j b Hnd Hp Hin) as E.
  fold (build_bkgs exts) in E. rewrite E. reflexivity.
Qed.
Lemma zred_above b zred refmag z0 zn m0 : zbkg_ok b ->
  nth_error (zb_z b) 0 = Some z0 -> nth_error (zb_z b) (List.length (zb_z b) - 1) = Some zn ->
  nth_error (zb_mag b) 0 = Some m0 -> (zn < zred)%Q -> (m0 < refmag)%Q ->
  exists i v, zred_lookup b zred refmag = Ok (Val v) /\ open_bin (zb_mag b) refmag i /\
    cell2 (zb_sig b) i (List.length (zb_z b) - 1) = Some v.
Proof.
  intros Hok Hz0 Hzn Hm0 Hz Hm.
  assert (Hle : (z0 <= zn)%Q).
  { destruct (Nat.eq_dec (List.length (zb_z b) - 1) 0) as [E|E]; [rewrite E, Hz0 in Hzn; injection Hzn as <-; lra|].
    apply Qlt_le_weak. eapply (SS_nth Qlt); [exact (zo_z _ Hok)| |exact Hz0|exact Hzn]. lia. }
  destruct (zred_general b zred refmag z0 m0 Hok Hz0 Hm0) as (r & E & _ & H).
  destruct H as (i & j & v & A & (a & Ha & Hlt & Hb) & C & ->); [split; lra|].
  exists i, v. split; [exact E|]. split; [exact A|].
  replace (List.length (zb_z b) - 1) with j; [exact C|].
  assert (j < List.length (zb_z b)) by (apply nth_error_Some; congruence).
  destruct (Nat.eq_dec j (List.length (zb_z b) - 1)) as [|n]; [assumption|exfalso].
  destruct (nth_ex (zb_z b) (S j) ltac:(lia)) as (c & Hc). specialize (Hb c Hc).
  destruct (Nat.eq_dec (S j) (List.length (zb_z b) - 1)) as [E'|n']; [rewrite E', Hzn in Hc; injection Hc as <-; lra|].
  pose proof (SS_nth Qlt _ _ _ _ _ (zo_z _ Hok) (ltac:(lia) : S j < List.length (zb_z b) - 1) Hc Hzn). lra.
Qed.
