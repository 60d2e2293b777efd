(** Proofs about the volume limit mask and areas. *)
From Coq Require Import QArith Lqa Permutation Sorting.Sorted.
From Verif.Base Require Import Py PyLemmas Sort.
From Verif.Model Require Import Vlim.
From Verif.Spec Require Import Vlim.
From Verif.Proofs Require Import Centering Zlambda.
Local Open Scope nat_scope.

Lemma SSlt_le l : StronglySorted Qlt l -> StronglySorted Qle l.
Proof.
  induction 1 as [|x l Hs IH Hf]; constructor; [exact IH|]. rewrite Forall_forall in *. intros y Hy. apply Qlt_le_weak, Hf, Hy.
Qed.
Lemma fold_min_first l x : (forall y, In y l -> (x <= y)%Q) -> fold_left Qmin2 l x = x.
Proof.
  revert x; induction l as [|a l IH]; intros x H; cbn [fold_left]; [reflexivity|].
  assert (E : Qmin2 x a = x). { unfold Qmin2. destruct (Qle_bool x a) eqn:E; [reflexivity|]. apply Qle_bool_false in E. specialize (H a (or_introl eq_refl)). lra. }
  rewrite E. apply IH. intros; apply H; right; assumption.
Qed.
Lemma sorted_min l : StronglySorted Qlt l -> l <> [] -> nth_error l 0 = Some (Qlist_min l).
Proof.
  intros H Hn. destruct l as [|x l]; [congruence|]. cbn. rewrite fold_min_first; [reflexivity|].
  inversion H as [|? ? _ Hf]; subst. rewrite Forall_forall in Hf. intros y Hy. apply Qlt_le_weak, Hf, Hy.
Qed.
Lemma fold_max_last l : forall x, StronglySorted Qlt (x :: l) -> fold_left Qmax2 l x = last l x.
Proof.
  induction l as [|a l IH]; intros x H; cbn [fold_left]; [reflexivity|].
  inversion H as [|? ? H' Hf]; subst. rewrite Forall_forall in Hf. assert (E : Qmax2 x a = a).
  { unfold Qmax2. destruct (Qle_bool x a) eqn:E; [reflexivity|]. apply Qle_bool_false in E. specialize (Hf a (or_introl eq_refl)). lra. }
  rewrite E. rewrite IH by exact H'. destruct l; [reflexivity|]. cbn [last]. clear. revert x a q. induction l as [|b l IH]; intros; [reflexivity|]. cbn [last]. apply (IH x a b).
Qed.
Lemma last_nth_error {A} (l : list A) d : nth_error (d :: l) (List.length l) = Some (last l d).
Proof.
  revert d; induction l as [|a l IH]; intros d; [reflexivity|]. cbn [List.length nth_error]. rewrite IH. f_equal.
  destruct l; [reflexivity|]. cbn [last]. clear. revert a a0 d. induction l as [|b l IH]; intros; [reflexivity|]. cbn [last]. apply (IH a b d).
Qed.
Lemma sorted_max l : StronglySorted Qlt l -> l <> [] -> nth_error l (List.length l - 1) = Some (Qlist_max l).
Proof.
  intros H Hn. destruct l as [|x l]; [congruence|]. cbn [Qlist_max]. rewrite fold_max_last by exact H.
  cbn [List.length]. replace (S (List.length l) - 1) with (List.length l) by lia. apply last_nth_error.
Qed.

(** the index chosen by one band *)
Lemma band_index zbins b n : StronglySorted Qlt zbins -> List.length zbins = n -> 2 <= n -> good_band n b ->
  exists j z, band_zmax zbins (fst b) (bdepth b) = Ok z /\ nth_error zbins j = Some z /\
    (forall k, k < j -> complete_at b k) /\
    (j = n - 1 \/ ~ complete_at b j \/ (j = 0 /\ exists lm, nth_error (fst b) 0 = Some lm /\ (bdepth b <= lm)%Q)) /\
    (j = 0 <-> exists lm, nth_error (fst b) 0 = Some lm /\ (bdepth b <= lm)%Q).
Proof.
  intros Hz Hn H2 [Hl Hs]. unfold band_zmax. set (L := fst b) in *. set (d := bdepth b) in *.
  assert (Hzn : zbins <> []) by (intros ->; cbn in Hn; lia). assert (HLn : L <> []) by (intros E; rewrite E in Hl; cbn in Hl; lia).
  pose proof (sorted_min zbins Hz Hzn) as Zmin. pose proof (sorted_max zbins Hz Hzn) as Zmax.
  pose proof (sorted_min L Hs HLn) as Lmin. pose proof (sorted_max L Hs HLn) as Lmax. rewrite Hl in Lmax. rewrite Hn in Zmax.
  assert (Hmm : (Qlist_min L < Qlist_max L)%Q) by (apply (SS_nth Qlt L 0 (n - 1) _ _ Hs); [lia|exact Lmin|exact Lmax]).
  destruct (Qle_bool (Qlist_max L) d) eqn:E1.
  - apply Qle_bool_iff in E1. exists (n - 1), (Qlist_max zbins). split; [reflexivity|]. split; [exact Zmax|]. split; [|split].
    + intros k Hk. destruct (nth_error L k) as [lm|] eqn:E; [|apply nth_error_None in E; lia]. exists lm. split; [exact E|].
      pose proof (SS_nth Qlt L k (n - 1) _ _ Hs Hk E Lmax). fold d. lra.
    + left. reflexivity.
    + split; [lia|]. intros [lm [Hlm Hd]]. assert (lm = Qlist_min L) by congruence. subst lm. lra.
  - apply Qle_bool_false in E1. destruct (Qle_bool d (Qlist_min L)) eqn:E2.
    + apply Qle_bool_iff in E2. exists 0, (Qlist_min zbins). split; [reflexivity|]. split; [exact Zmin|]. split; [lia|]. split.
      * right. right. split; [reflexivity|]. exists (Qlist_min L). auto.
      * split; [intros _; exists (Qlist_min L); auto|reflexivity].
    + apply Qle_bool_false in E2. set (j := ss_right L d).
      assert (Hj : j < n).
      { destruct (Nat.lt_ge_cases j n) as [|Hge]; [assumption|]. exfalso.
        assert (H : n - 1 < ss_right L d) by (fold j; lia). apply (ss_right_spec L d (n - 1) _ (SSlt_le _ Hs) Lmax) in H. lra. }
      rewrite py_index_nat. destruct (nth_error zbins j) as [z|] eqn:Ez; [|apply nth_error_None in Ez; lia].
      exists j, z. split; [reflexivity|]. split; [exact Ez|].
      assert (J1 : 0 < j) by (apply (ss_right_spec L d 0 _ (SSlt_le _ Hs) Lmin); lra).
      split; [|split].
      * intros k Hk. destruct (nth_error L k) as [lm|] eqn:E; [|apply nth_error_None in E; lia]. exists lm. split; [exact E|].
        apply (ss_right_spec L d k lm (SSlt_le _ Hs) E). exact Hk.
      * right. left. intros [lm [Hlm Hd]]. apply (ss_right_spec L d j lm (SSlt_le _ Hs) Hlm) in Hd. fold j in Hd. lia.
      * split; [lia|]. intros [lm [Hlm Hd]]. assert (lm = Qlist_min L) by congruence. subst lm. lra.
Qed.

Lemma sorted_lt_iff zbins i j x y : StronglySorted Qlt zbins -> nth_error zbins i = Some x -> nth_error zbins j = Some y -> ((x < y)%Q <-> i < j).
Proof.
  intros H Hx Hy. split; intros G.
  - destruct (Nat.lt_ge_cases i j) as [|Hge]; [assumption|]. exfalso. destruct (Nat.eq_dec i j) as [->|]; [assert (x = y) by congruence; subst; lra|].
    pose proof (SS_nth Qlt zbins j i _ _ H ltac:(lia) Hy Hx). lra.
  - apply (SS_nth Qlt zbins i j _ _ H G Hx Hy).
Qed.

Definition covers (n j : nat) (bands : list band) : Prop :=
  (forall b k, In b bands -> k < j -> complete_at b k) /\
  (j = n - 1 \/ exists b, In b bands /\ (~ complete_at b j \/ (j = 0 /\ exists lm, nth_error (fst b) 0 = Some lm /\ (bdepth b <= lm)%Q))) /\
  (j = 0 <-> exists b, In b bands /\ exists lm, nth_error (fst b) 0 = Some lm /\ (bdepth b <= lm)%Q).

Lemma extra_index zbins n bs : StronglySorted Qlt zbins -> List.length zbins = n -> 2 <= n -> (forall b, In b bs -> good_band n b) ->
  forall done j z, nth_error zbins j = Some z -> covers n j done ->
  exists j' z', extra_bands zbins bs z = Ok z' /\ nth_error zbins j' = Some z' /\ covers n j' (done ++ bs).
Proof.
  intros Hz Hn H2. induction bs as [|b bs IH]; intros Hb done j z Hj Hc.
  - exists j, z. rewrite app_nil_r. auto.
  - cbn [extra_bands]. destruct b as [L d] eqn:Eb. rewrite <- Eb in *.
    destruct (band_index zbins b n Hz Hn H2 (Hb b (or_introl eq_refl))) as (jb & zb & Ez & Hjb & A & B & C).
    assert (Ez' : band_zmax zbins L (match d with Some x => x | None => 0%Q end) = Ok zb) by (rewrite Eb in Ez; exact Ez).
    rewrite Ez'. cbn [bind].
    destruct Hc as (C1 & C2 & C3).
    assert (Hnew : exists jn zn, (if Qlt_bool zb z then zb else z) = zn /\ nth_error zbins jn = Some zn /\ covers n jn (done ++ [b])).
    { destruct (Qlt_bool zb z) eqn:E.
      - apply Qlt_bool_iff in E. apply (sorted_lt_iff zbins jb j zb z Hz Hjb Hj) in E. exists jb, zb. split; [reflexivity|]. split; [exact Hjb|].
        split; [|split].
        + intros b' k Hin Hk. apply in_app_or in Hin. destruct Hin as [Hin|[<-|[]]]; [apply C1; [exact Hin|lia]|apply A, Hk].
        + destruct B as [B|B]; [left; exact B|right]. exists b. split; [apply in_or_app; right; left; reflexivity|exact B].
        + rewrite C. split.
          * intros G. exists b. split; [apply in_or_app; right; left; reflexivity|exact G].
          * intros [b' [Hin G]]. apply in_app_or in Hin. destruct Hin as [Hin|[<-|[]]]; [|exact G].
            exfalso. assert (j = 0) by (apply C3; exists b'; auto). lia.
      - apply Qlt_bool_false in E. exists j, z. split; [reflexivity|]. split; [exact Hj|].
        assert (Hle : j <= jb). { destruct (Nat.lt_ge_cases jb j) as [Hlt|]; [|assumption]. exfalso. pose proof (proj2 (sorted_lt_iff zbins jb j zb z Hz Hjb Hj) Hlt). lra. }
        split; [|split].
        + intros b' k Hin Hk. apply in_app_or in Hin. destruct Hin as [Hin|[<-|[]]]; [apply C1; assumption|apply A; lia].
        + destruct C2 as [C2|[b' [Hin G]]]; [left; exact C2|right]. exists b'. split; [apply in_or_app; left; exact Hin|exact G].
        + rewrite C3. split.
          * intros [b' [Hin G]]. exists b'. split; [apply in_or_app; left; exact Hin|exact G].
          * intros [b' [Hin G]]. apply in_app_or in Hin. destruct Hin as [Hin|[<-|[]]]; [exists b'; auto|].
            apply C3. assert (jb = 0) by (apply C; exact G). lia. }
    destruct Hnew as (jn & zn & -> & Hjn & Cn).
    destruct (IH (fun b' Hb' => Hb b' (or_intror Hb')) (done ++ [b]) jn zn Hjn Cn) as (j' & z' & E' & Hj' & C').
    exists j', z'. rewrite <- app_assoc in C'. cbn [app] in C'. auto.
Qed.

Lemma vlim_index zbins n b bs : StronglySorted Qlt zbins -> List.length zbins = n -> 2 <= n -> good_band n b ->
  (forall b', In b' bs -> good_band n b') ->
  exists o j z, vlim_pixel zbins (fst b) (bdepth b) bs = Ok o /\ nth_error zbins j = Some z /\ covers n j (b :: bs) /\
    o = (if Nat.eqb j 0 then None else Some z).
Proof.
  intros Hz Hn H2 Hb Hbs. unfold vlim_pixel.
  destruct (band_index zbins b n Hz Hn H2 Hb) as (jb & zb & Ez & Hjb & A & B & C). rewrite Ez. cbn [bind].
  assert (C0 : covers n jb [b]).
  { split; [intros b' k [<-|[]] Hk; apply A, Hk|]. split.
    - destruct B as [B|B]; [left; exact B|right; exists b; split; [left; reflexivity|exact B]].
    - rewrite C. split; [intros G; exists b; split; [left; reflexivity|exact G]|intros [b' [[<-|[]] G]]; exact G]. }
  destruct (extra_index zbins n bs Hz Hn H2 Hbs [b] jb zb Hjb C0) as (j & z & E & Hj & Cj). rewrite E. cbn [bind].
  destruct (nth_error zbins 0) as [z0|] eqn:E0; [|apply nth_error_None in E0; lia].
  change 0%Z with (Z.of_nat 0). rewrite py_index_nat, E0. cbn [bind].
  eexists _, j, z. split; [reflexivity|]. split; [exact Hj|]. split; [exact Cj|].
  destruct (Qlt_bool z0 z) eqn:El.
  - apply Qlt_bool_iff in El. apply (sorted_lt_iff zbins 0 j z0 z Hz E0 Hj) in El. destruct (Nat.eqb_spec j 0); [lia|reflexivity].
  - apply Qlt_bool_false in El. destruct (Nat.eqb_spec j 0) as [|Hj0]; [reflexivity|]. exfalso.
    pose proof (proj2 (sorted_lt_iff zbins 0 j z0 z Hz E0 Hj) ltac:(lia)). lra.
Qed.

(** ** areas *)
Lemma cumsum_nth l i : i < List.length l -> exists c, nth_error (cumsum l) i = Some c /\ (c == Qsum (firstn (S i) l))%Q.
Proof. intros H. destruct (cumsum_from_nth 0 l i H) as [y [H1 H2]]. exists y. split; [exact H1|]. rewrite H2. ring. Qed.
Lemma Qsum_firstn_mono l i j : (forall x, In x l -> (0 <= x)%Q) -> i <= j -> (Qsum (firstn i l) <= Qsum (firstn j l))%Q.
Proof.
  revert i j; induction l as [|x l IH]; intros i j H Hij; [rewrite !firstn_nil; cbn; lra|].
  destruct i as [|i].
  - cbn. apply Qsum_nonneg. intros y Hy. apply H. rewrite <- (firstn_skipn j (x :: l)). apply in_or_app. left. exact Hy.
  - destruct j as [|j]; [lia|]. cbn [firstn Qsum]. specialize (IH i j (fun y Hy => H y (or_intror Hy)) ltac:(lia)). lra.
Qed.
Lemma Qsum_firstn_le l i : (forall x, In x l -> (0 <= x)%Q) -> (Qsum (firstn i l) <= Qsum l)%Q.
Proof.
  intros H. destruct (Nat.le_ge_cases i (List.length l)) as [Hi|Hi].
  - rewrite <- (firstn_all l) at 2. apply Qsum_firstn_mono; assumption.
  - rewrite firstn_all2 by lia. lra.
Qed.
Lemma take_perm {A} (l : list A) st r (d : A) : np_take l st = Ok r -> Permutation st (seq 0 (List.length l)) -> Permutation r l.
Proof.
  intros H P. rewrite (np_take_map_nth l st r d H). transitivity (map (fun i => nth i l d) (seq 0 (List.length l))); [apply Permutation_map, P|].
  rewrite map_nth_seq. reflexivity.
Qed.
Lemma taken_sorted asort l r : argsort_spec asort -> np_take l (asort l) = Ok r -> StronglySorted Qle r.
Proof.
  intros HA H. destruct (HA l) as [_ HS].
  assert (G : forall i j x y, i < j -> nth_error r i = Some x -> nth_error r j = Some y -> (x <= y)%Q).
  { intros i j x y Hij Hx Hy. destruct (np_take_nth_inv _ _ _ _ _ H Hx) as [a [Ha Hxa]]. destruct (np_take_nth_inv _ _ _ _ _ H Hy) as [b [Hb Hyb]].
    apply (HS i j a b x y Hij Ha Hb Hxa Hyb). }
  clear -G. induction r as [|a r IH]; constructor.
  - apply IH. intros i j x y Hij Hx Hy. apply (G (S i) (S j)); [lia|exact Hx|exact Hy].
  - rewrite Forall_forall. intros y Hy. apply In_nth_error in Hy. destruct Hy as [k Hk]. apply (G 0 (S k)); [lia|reflexivity|exact Hk].
Qed.

(** the sorted pixel table *)
Lemma sorted_table asort (pix : list (Q * Q)) : argsort_spec asort -> good_pixels pix ->
  exists fg zs, np_take (map snd pix) (asort (map fst pix)) = Ok fg /\ np_take (map fst pix) (asort (map fst pix)) = Ok zs /\
    List.length fg = List.length pix /\ List.length zs = List.length pix /\ StronglySorted Qle zs /\
    (forall x, In x fg -> (0 < x)%Q) /\ (Qsum fg == Qsum (map snd pix))%Q /\ (forall z, In z zs <-> In z (map fst pix)).
Proof.
  intros HA HG. pose proof (asort_length asort (map fst pix) HA) as La. rewrite map_length in La.
  assert (P : Permutation (asort (map fst pix)) (seq 0 (List.length pix))) by (rewrite <- (map_length fst pix); apply HA).
  assert (Hin : forall i, In i (asort (map fst pix)) -> i < List.length pix).
  { intros i Hi. apply (Permutation_in i P) in Hi. apply in_seq in Hi. lia. }
  destruct (np_take_total (map snd pix) (asort (map fst pix))) as [fg Efg]; [intros i Hi; rewrite map_length; apply Hin, Hi|].
  destruct (np_take_total (map fst pix) (asort (map fst pix))) as [zs Ezs]; [intros i Hi; rewrite map_length; apply Hin, Hi|].
  exists fg, zs. split; [exact Efg|]. split; [exact Ezs|].
  split; [rewrite (np_take_len _ _ _ Efg); exact La|]. split; [rewrite (np_take_len _ _ _ Ezs); exact La|].
  assert (P1 : Permutation fg (map snd pix)) by (apply (take_perm (map snd pix) _ fg 0%Q Efg); rewrite map_length; exact P).
  assert (P2 : Permutation zs (map fst pix)) by (apply (take_perm (map fst pix) _ zs 0%Q Ezs); rewrite map_length; exact P).
  split; [apply (taken_sorted asort _ _ HA Ezs)|]. split; [|split; [apply Qsum_perm, P1|]].
  - intros x Hx. apply (Permutation_in x P1) in Hx. apply in_map_iff in Hx. destruct Hx as [p [<- Hp]]. apply HG, Hp.
  - intros z. split; intros Hz; [apply (Permutation_in z P2), Hz|apply (Permutation_in z (Permutation_sym P2)), Hz].
Qed.

Lemma carea_nth ps fg i : i < List.length fg -> exists a, py_index (map (fun c => (ps * c)%Q) (cumsum fg)) (Z.of_nat i) = Ok a /\ (a == ps * Qsum (firstn (S i) fg))%Q.
Proof.
  intros H. destruct (cumsum_nth fg i H) as [c [Hc Hq]]. exists (ps * c)%Q. rewrite py_index_nat, nth_error_map, Hc. split; [reflexivity|]. rewrite Hq. reflexivity.
Qed.

(** what the two functions compute, in terms of a decreasing count *)
Lemma ss_right_le_len l x : ss_right l x <= List.length l.
Proof. apply prefix_len_le. Qed.
Lemma ss_right_mono l x y : (x <= y)%Q -> StronglySorted Qle l -> ss_right l x <= ss_right l y.
Proof.
  intros H Hs. destruct (Nat.le_gt_cases (ss_right l x) (ss_right l y)) as [|Hgt]; [assumption|]. exfalso.
  pose proof (ss_right_le_len l x). destruct (nth_error l (ss_right l y)) as [v|] eqn:E; [|apply nth_error_None in E; lia].
  pose proof (proj1 (ss_right_spec l x _ v Hs E) Hgt). assert (G : (v <= y)%Q) by lra.
  apply (ss_right_spec l y _ v Hs E) in G. lia.
Qed.
Lemma ss_left_mono l x y : (x <= y)%Q -> StronglySorted Qle l -> ss_left l x <= ss_left l y.
Proof.
  intros H Hs. destruct (Nat.le_gt_cases (ss_left l x) (ss_left l y)) as [|Hgt]; [assumption|]. exfalso.
  assert (ss_left l x <= List.length l) by apply prefix_len_le. destruct (nth_error l (ss_left l y)) as [v|] eqn:E; [|apply nth_error_None in E; lia].
  pose proof (proj1 (ss_left_spec l x _ v Hs E) Hgt). assert (G : (v < y)%Q) by lra.
  apply (ss_left_spec l y _ v Hs E) in G. lia.
Qed.

Lemma vlim_area_eq asort ps pix z fg zs : np_take (map snd pix) (asort (map fst pix)) = Ok fg -> np_take (map fst pix) (asort (map fst pix)) = Ok zs ->
  List.length zs = List.length fg ->
  exists a, vlim_area asort ps pix z = Ok a /\
   (a == ps * Qsum (firstn (if Nat.eqb (ss_right zs z) 0 then List.length fg else List.length fg - ss_right zs z + 1) fg))%Q.
Proof.
  intros Ef Ez Hl. unfold vlim_area. cbv zeta. rewrite Ef, Ez. cbn [bind]. pose proof (ss_right_le_len zs z) as Hle.
  destruct (ss_right zs z) as [|k] eqn:E; cbn [Nat.leb Nat.eqb].
  - eexists. split; [reflexivity|]. rewrite firstn_all. ring.
  - rewrite map_length. unfold cumsum. rewrite cumsum_from_length.
    replace (Z.of_nat (List.length fg) - Z.of_nat (S k))%Z with (Z.of_nat (List.length fg - S k)) by lia.
    destruct (carea_nth ps fg (List.length fg - S k)) as [a [H1 H2]]; [lia|]. exists a. split; [exact H1|]. rewrite H2.
    replace (List.length fg - S k + 1) with (S (List.length fg - S k)) by lia. reflexivity.
Qed.

Lemma vlim_area_bounds asort ps pix : argsort_spec asort -> good_pixels pix -> (0 <= ps)%Q ->
  forall z, exists a, vlim_area asort ps pix z = Ok a /\ (0 <= a)%Q /\ (a <= total_area ps pix)%Q /\
    ((forall p, In p pix -> (z < fst p)%Q) -> (a == total_area ps pix)%Q) /\
    (forall z' a', (z <= z')%Q -> vlim_area asort ps pix z' = Ok a' -> (a' <= a)%Q) /\
    (pix <> [] -> (forall p, In p pix -> (fst p <= z)%Q) -> exists p, In p pix /\ (a == ps * snd p)%Q /\ forall q, In q pix -> (fst p <= fst q)%Q).
Proof.
  intros HA HG Hp z. destruct (sorted_table asort pix HA HG) as (fg & zs & Ef & Ez & Lf & Lz & Ss & Pf & Sf & Iz).
  assert (Pf' : forall x, In x fg -> (0 <= x)%Q) by (intros x Hx; apply Qlt_le_weak, Pf, Hx).
  destruct (vlim_area_eq asort ps pix z fg zs Ef Ez ltac:(lia)) as [a [Ea Ha]]. exists a. split; [exact Ea|].
  assert (Hn : forall k, (0 <= Qsum (firstn k fg))%Q).
  { intros k. apply Qsum_nonneg. intros x Hx. apply Pf'. rewrite <- (firstn_skipn k fg). apply in_or_app. left. exact Hx. }
  split; [|split; [|split; [|split]]].
  - rewrite Ha. specialize (Hn (if Nat.eqb (ss_right zs z) 0 then List.length fg else List.length fg - ss_right zs z + 1)). nra.
  - rewrite Ha. unfold total_area. rewrite <- Sf. pose proof (Qsum_firstn_le fg (if Nat.eqb (ss_right zs z) 0 then List.length fg else List.length fg - ss_right zs z + 1) Pf'). nra.
  - intros Hall. rewrite Ha. unfold total_area. rewrite <- Sf.
    destruct (Nat.eqb_spec (ss_right zs z) 0) as [|Hne]; [rewrite firstn_all; reflexivity|]. exfalso.
    pose proof (ss_right_le_len zs z) as Hlen. destruct (nth_error zs 0) as [v|] eqn:E; [|apply nth_error_None in E; lia].
    pose proof (proj1 (ss_right_spec zs z 0 v Ss E) ltac:(lia)) as Hv.
    assert (Hin : In v (map fst pix)) by (apply Iz, nth_error_In with 0; exact E). apply in_map_iff in Hin. destruct Hin as [p [<- Hp']].
    specialize (Hall p Hp'). lra.
  - intros z' a' Hzz Ea'. destruct (vlim_area_eq asort ps pix z' fg zs Ef Ez ltac:(lia)) as [a2 [Ea2 Ha2]].
    assert (a2 = a') by congruence. subst a2. rewrite Ha, Ha2. pose proof (ss_right_mono zs z z' Hzz Ss) as Hm.
    assert (G : (Qsum (firstn (if Nat.eqb (ss_right zs z') 0 then List.length fg else List.length fg - ss_right zs z' + 1) fg) <=
                 Qsum (firstn (if Nat.eqb (ss_right zs z) 0 then List.length fg else List.length fg - ss_right zs z + 1) fg))%Q).
    { destruct (Nat.eqb_spec (ss_right zs z) 0) as [E|E].
      - rewrite (firstn_all fg). apply Qsum_firstn_le, Pf'.
      - destruct (Nat.eqb_spec (ss_right zs z') 0); [lia|]. apply Qsum_firstn_mono; [exact Pf'|lia]. }
    nra.
  - intros Hne Hall.
    assert (Hr : ss_right zs z = List.length zs).
    { destruct (Nat.eq_dec (ss_right zs z) (List.length zs)) as [|Hneq]; [assumption|]. exfalso. pose proof (ss_right_le_len zs z).
      destruct (nth_error zs (ss_right zs z)) as [v|] eqn:E; [|apply nth_error_None in E; lia].
      assert (Hin : In v (map fst pix)) by (apply Iz; eapply nth_error_In; exact E). apply in_map_iff in Hin. destruct Hin as [p [<- Hp']].
      pose proof (proj2 (ss_right_spec zs z _ _ Ss E) (Hall p Hp')). lia. }
    assert (Hl0 : 0 < List.length zs) by (rewrite Lz; destruct pix; [congruence|cbn; lia]).
    rewrite Hr in Ha. destruct (Nat.eqb_spec (List.length zs) 0); [lia|]. replace (List.length fg - List.length zs + 1) with 1 in Ha by lia.
    (* the first entry of the sorted table *)
    destruct (nth_error (asort (map fst pix)) 0) as [i|] eqn:Ei.
    2:{ apply nth_error_None in Ei. rewrite (asort_length asort _ HA), map_length in Ei. lia. }
    destruct (np_take_nth _ _ _ _ _ Ef Ei) as [f0 [Hf0 Hf0']]. destruct (np_take_nth _ _ _ _ _ Ez Ei) as [z0 [Hz0 Hz0']].
    rewrite nth_error_map in Hf0, Hz0. destruct (nth_error pix i) as [p|] eqn:Ep; [|discriminate]. injection Hf0 as <-. injection Hz0 as <-.
    exists p. split; [apply nth_error_In with i; exact Ep|]. split.
    + rewrite Ha. destruct fg as [|f fg']; [discriminate|]. cbn in Hf0'. injection Hf0' as <-. cbn [firstn Qsum]. ring.
    + intros q Hq. assert (Hin : In (fst q) zs) by (apply Iz, in_map, Hq). apply In_nth_error in Hin. destruct Hin as [k Hk].
      destruct k as [|k]; [assert (fst q = fst p) as E0 by congruence; rewrite E0; apply Qle_refl|].
      apply (SS_nth Qle zs 0 (S k) _ _ Ss ltac:(lia) Hz0' Hk).
Qed.

(** depth map *)
Lemma depth_area_cases asort ps pix : argsort_spec asort -> good_pixels pix -> (forall p, In p pix -> (0 < fst p)%Q) -> (0 <= ps)%Q ->
  (List.length pix = 1 -> forall m, depth_area asort ps pix m = Err IndexError) /\
  (2 <= List.length pix -> forall m, exists a, depth_area asort ps pix m = Ok a /\ (0 <= a)%Q /\ (a <= total_area ps pix)%Q /\
     (forall m' a', (m <= m')%Q -> depth_area asort ps pix m' = Ok a' -> (a' <= a)%Q) /\
     ((forall p, In p pix -> (fst p < m)%Q) -> exists p q, In p pix /\ In q pix /\ (a == ps * (snd p + snd q))%Q)).
Proof.
  intros HA HG Hpos Hp.
  assert (Hf : filter (fun p => Qlt_bool 0 (fst p)) pix = pix).
  { clear -Hpos. induction pix as [|p pix IH]; cbn; [reflexivity|]. rewrite (proj2 (Qlt_bool_iff 0 (fst p)) (Hpos p (or_introl eq_refl))). f_equal. apply IH. intros; apply Hpos; right; assumption. }
  destruct (sorted_table asort pix HA HG) as (fg & zs & Ef & Ez & Lf & Lz & Ss & Pf & Sf & Iz).
  assert (Pf' : forall x, In x fg -> (0 <= x)%Q) by (intros x Hx; apply Qlt_le_weak, Pf, Hx).
  split.
  - intros H1 m. unfold depth_area. cbv zeta. rewrite Hf, Ez, Ef. cbn [bind]. rewrite Lz, H1. unfold clipZ.
    replace (Z.min (Z.max (Z.of_nat (ss_left zs m) - 1) 1) (Z.of_nat 1 - 1)) with 0%Z by lia. cbn [Z.ltb Z.compare].
    rewrite map_length. unfold cumsum. rewrite cumsum_from_length, Lf, H1. change (Z.of_nat 1 - 0)%Z with (Z.of_nat 1).
    rewrite py_index_nat. rewrite (proj2 (nth_error_None _ 1)); [reflexivity|]. rewrite map_length, cumsum_from_length. lia.
  - intros H2. set (n := List.length pix) in *.
    assert (Q : forall m, exists k a, 1 <= k <= n - 1 /\ Z.of_nat k = clipZ 1 (Z.of_nat n - 1) (Z.of_nat (ss_left zs m) - 1) /\
        depth_area asort ps pix m = Ok a /\ (a == ps * Qsum (firstn (n - k + 1) fg))%Q).
    { intros m. set (c := clipZ 1 (Z.of_nat n - 1) (Z.of_nat (ss_left zs m) - 1)).
      assert (Hc : (1 <= c <= Z.of_nat n - 1)%Z) by (unfold c, clipZ; lia). exists (Z.to_nat c).
      destruct (carea_nth ps fg (n - Z.to_nat c)) as [a [H1 H3]]; [lia|]. exists a. split; [lia|]. split; [lia|]. split.
      - unfold depth_area. cbv zeta. rewrite Hf, Ez, Ef. cbn [bind]. rewrite Lz. fold n. fold c.
        destruct (c <? 0)%Z eqn:E; [apply Z.ltb_lt in E; lia|]. rewrite map_length. unfold cumsum at 2. rewrite cumsum_from_length, Lf. fold n.
        replace (Z.of_nat n - c)%Z with (Z.of_nat (n - Z.to_nat c)) by lia. exact H1.
      - rewrite H3. replace (n - Z.to_nat c + 1) with (S (n - Z.to_nat c)) by lia. reflexivity. }
    intros m. destruct (Q m) as (k & a & Hk & Hkc & Ea & Ha). exists a. split; [exact Ea|].
    assert (Hn : (0 <= Qsum (firstn (n - k + 1) fg))%Q).
    { apply Qsum_nonneg. intros x Hx. apply Pf'. rewrite <- (firstn_skipn (n - k + 1) fg). apply in_or_app. left. exact Hx. }
    split; [rewrite Ha; nra|]. split; [rewrite Ha; unfold total_area; rewrite <- Sf; pose proof (Qsum_firstn_le fg (n - k + 1) Pf'); nra|]. split.
    + intros m' a' Hm Ea'. destruct (Q m') as (k' & a2 & Hk' & Hkc' & Ea2 & Ha2). assert (a2 = a') by congruence. subst a2.
      pose proof (ss_left_mono zs m m' Hm Ss). assert (k <= k') by (unfold clipZ in *; lia). rewrite Ha, Ha2.
      pose proof (Qsum_firstn_mono fg (n - k' + 1) (n - k + 1) Pf' ltac:(lia)). nra.
    + intros Hall.
      assert (Hr : ss_left zs m = n).
      { assert (ss_left zs m <= List.length zs) by apply prefix_len_le. destruct (Nat.eq_dec (ss_left zs m) n) as [|Hneq]; [assumption|]. exfalso.
        destruct (nth_error zs (ss_left zs m)) as [v|] eqn:E; [|apply nth_error_None in E; lia].
        assert (Hin : In v (map fst pix)) by (apply Iz; eapply nth_error_In; exact E). apply in_map_iff in Hin. destruct Hin as [p [<- Hp']].
        pose proof (proj2 (ss_left_spec zs m _ _ Ss E) (Hall p Hp')). lia. }
      assert (k = n - 1) by (unfold clipZ in Hkc; lia). subst k. replace (n - (n - 1) + 1) with 2 in Ha by lia.
      assert (Hpick : forall i f, nth_error fg i = Some f -> exists p, In p pix /\ snd p = f).
      { intros i f Hi. assert (Hin : In f fg) by (eapply nth_error_In; exact Hi). apply (np_take_In _ _ _ _ Ef) in Hin. destruct Hin as [a0 [_ Hx]].
        apply nth_error_In, in_map_iff in Hx. destruct Hx as [p [H1 H3]]. eauto. }
      destruct fg as [|f0 [|f1 fg']]; cbn in Lf; try lia.
      destruct (Hpick 0 f0 eq_refl) as [p [Hp1 Hp2]]. destruct (Hpick 1 f1 eq_refl) as [q [Hq1 Hq2]].
      exists p, q. split; [exact Hp1|]. split; [exact Hq1|]. rewrite Ha, Hp2, Hq2. cbn [firstn Qsum]. ring.
Qed.
