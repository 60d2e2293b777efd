(** Proofs about consolidation. *)
From Coq Require Import QArith Lqa Permutation Sorting.Sorted.
From Verif.Base Require Import Py PyLemmas Sort.
From Verif.Model Require Import Richness Consolidate.
From Verif.Spec Require Import Galfile Consolidate.
From Verif.Proofs Require Import Galfile Chunks Richness Centering Randoms Vlim.
Local Open Scope nat_scope.

(** ** number ranges *)
Lemma seqZ_length s n : List.length (seqZ s n) = n.
Proof. revert s; induction n as [|n IH]; intros s; cbn; [reflexivity|]. rewrite IH. reflexivity. Qed.
Lemma seqZ_nth n : forall s i, i < n -> nth_error (seqZ s n) i = Some (s + Z.of_nat i)%Z.
Proof.
  induction n as [|n IH]; intros s i H; [lia|]. destruct i as [|i]; cbn [seqZ nth_error]; [f_equal; lia|]. rewrite IH by lia. f_equal. lia.
Qed.
Lemma seqZ_In n : forall s x, In x (seqZ s n) <-> (s <= x < s + Z.of_nat n)%Z.
Proof. induction n as [|n IH]; intros s x; cbn [seqZ In]; [lia|]. rewrite IH. lia. Qed.
Lemma seqZ_NoDup n : forall s, NoDup (seqZ s n).
Proof. induction n as [|n IH]; intros s; cbn; constructor; [|apply IH]. rewrite seqZ_In. lia. Qed.
Lemma seqZ_app a b : forall s, seqZ s (a + b) = seqZ s a ++ seqZ (s + Z.of_nat a) b.
Proof.
  induction a as [|a IH]; intros s; cbn [Nat.add seqZ app]; [f_equal; lia|]. f_equal. rewrite IH. do 2 f_equal. lia.
Qed.

(** ** relabelling *)
Definition relab (old new : list Z) (y : Z) : Z := match index_ofZ y old with Some i => nth i new y | None => y end.

Lemma match_from_pair a1 a2 : forall off j y i, nth_error a2 j = Some y -> index_ofZ y a1 = Some i ->
  exists k, nth_error (fst (match_from a1 off a2)) k = Some i /\ nth_error (snd (match_from a1 off a2)) k = Some (off + j).
Proof.
  induction a2 as [|z a2 IH]; intros off j y i Hj Hi; [destruct j; discriminate|]. cbn [match_from].
  destruct j as [|j]; cbn in Hj.
  - injection Hj as ->. rewrite Hi. destruct (match_from a1 (S off) a2) as [s1 s2]. exists 0. cbn. rewrite Nat.add_0_r. auto.
  - destruct (IH (S off) j y i Hj Hi) as (k & H1 & H2). destruct (match_from a1 (S off) a2) as [s1 s2]. cbn [fst snd] in *.
    destruct (index_ofZ z a1) as [i'|].
    + exists (S k). cbn. split; [exact H1|]. rewrite H2. f_equal. lia.
    + exists k. cbn. split; [exact H1|]. rewrite H2. f_equal. lia.
Qed.
Lemma map_fst_combine {A B} (l : list A) (m : list B) : List.length l = List.length m -> map fst (combine l m) = l.
Proof. revert m; induction l as [|a l IH]; intros [|b m] H; cbn in *; try discriminate; [reflexivity|]. rewrite IH by lia. reflexivity. Qed.

Lemma scatter_match old new a2 v : List.length new = List.length old -> np_take new (fst (match_from old 0 a2)) = Ok v ->
  scatter a2 (combine (snd (match_from old 0 a2)) v) = map (relab old new) a2.
Proof.
  intros Hl Hv. apply nth_error_ext. intros j. rewrite nth_error_map.
  assert (Hlen : List.length (snd (match_from old 0 a2)) = List.length v).
  { rewrite (np_take_len _ _ _ Hv). destruct (match_from old 0 a2) as [s1 s2] eqn:E. cbn. symmetry. apply (match_from_length _ _ _ _ _ E). }
  destruct (nth_error a2 j) as [y|] eqn:Ey; cbn [option_map].
  - unfold relab. destruct (index_ofZ y old) as [i|] eqn:Ei.
    + destruct (match_from_pair old a2 0 j y i Ey Ei) as (k & H1 & H2). cbn [Nat.add] in H2.
      destruct (np_take_nth _ _ _ _ _ Hv H1) as [x [Hx Hx']].
      rewrite (scatter_in _ k j x).
      * f_equal. symmetry. apply nth_error_nth, Hx.
      * rewrite map_fst_combine by exact Hlen. rewrite match_from_snd. apply np_where_NoDup.
      * apply combine_nth_error. auto.
      * apply nth_error_Some. congruence.
    + rewrite scatter_notin; [exact Ey|]. rewrite map_fst_combine by exact Hlen. rewrite match_from_snd. intros H.
      apply (where_from_spec _ a2 0 j) in H. destruct H as (y' & H1 & H2 & _). rewrite Nat.sub_0_r in H1. assert (y' = y) by congruence. subst y'. rewrite Ei in H2. discriminate.
  - apply nth_error_None. rewrite scatter_length. apply nth_error_None, Ey.
Qed.
Lemma set_mids_map mem f : set_mids mem (map f (map m_id mem)) = map (fun m => mwith m (f (m_id m))) mem.
Proof. unfold set_mids. induction mem as [|m mem IH]; cbn; [reflexivity|]. rewrite IH. reflexivity. Qed.
Lemma set_cids_map cat f : set_cids cat (map f (map c_id cat)) = map (fun c => cwith c (f (c_id c))) cat.
Proof. unfold set_cids. induction cat as [|m cat IH]; cbn; [reflexivity|]. rewrite IH. reflexivity. Qed.

Lemma match_take old (new : list Z) a2 : List.length new = List.length old -> exists v, np_take new (fst (match_from old 0 a2)) = Ok v.
Proof.
  intros Hl. apply np_take_total. intros i Hi. rewrite match_from_fst in Hi. apply in_flat_map in Hi. destruct Hi as [y [_ Hy]].
  destruct (index_ofZ y old) as [k|] eqn:E; [|destruct Hy]. destruct Hy as [<-|[]]. apply index_ofZ_nth in E. rewrite Hl. apply nth_error_Some. congruence.
Qed.
Lemma rematch_ok old new mem : old <> [] -> mem <> [] -> NoDup old -> List.length new = List.length old ->
  rematch old new mem = Ok (map (fun m => mwith m (relab old new (m_id m))) mem, np_where (fun m => is_in (m_id m) old) mem).
Proof.
  intros H1 H2 H3 Hl. unfold rematch, eu_match. destruct old as [|o old]; [congruence|]. destruct mem as [|m mem]; [congruence|].
  set (O := o :: old) in *. set (M := m :: mem) in *. replace (_ || _)%bool with false by reflexivity. apply nodupZ_iff in H3. rewrite H3. cbn [bind].
  destruct (match_take O new (map m_id M) Hl) as [v Hv]. rewrite Hv. cbn [bind].
  rewrite (scatter_match O new _ v Hl Hv), set_mids_map, match_from_snd. do 2 f_equal.
  rewrite where_from_map. unfold np_where. apply where_from_ext. intros x. apply index_is_in.
Qed.
Lemma rematch_cat_ok old new cat : old <> [] -> cat <> [] -> NoDup old -> List.length new = List.length old ->
  rematch_cat old new cat = Ok (map (fun c => cwith c (relab old new (c_id c))) cat).
Proof.
  intros H1 H2 H3 Hl. unfold rematch_cat, eu_match. destruct old as [|o old]; [congruence|]. destruct cat as [|m mem]; [congruence|].
  set (O := o :: old) in *. set (M := m :: mem) in *. replace (_ || _)%bool with false by reflexivity. apply nodupZ_iff in H3. rewrite H3. cbn [bind].
  destruct (match_take O new (map c_id M) Hl) as [v Hv]. rewrite Hv. cbn [bind].
  rewrite (scatter_match O new _ v Hl Hv), set_cids_map. reflexivity.
Qed.
Lemma index_nth l : NoDup l -> forall k y, nth_error l k = Some y -> index_ofZ y l = Some k.
Proof.
  intros Hnd k y H. destruct (index_ofZ_In y l (nth_error_In _ _ H)) as [i Hi]. rewrite Hi. f_equal.
  apply index_ofZ_nth in Hi. apply (proj1 (NoDup_nth_error l) Hnd); [apply nth_error_Some; congruence|congruence].
Qed.
Lemma relab_seq old s k y : NoDup old -> nth_error old k = Some y -> relab old (seqZ s (List.length old)) y = (s + Z.of_nat k)%Z.
Proof.
  intros Hnd H. unfold relab. rewrite (index_nth old Hnd k y H). apply nth_error_nth. apply seqZ_nth. apply nth_error_Some. congruence.
Qed.
Lemma relab_all old s : NoDup old -> map (relab old (seqZ s (List.length old))) old = seqZ s (List.length old).
Proof.
  intros Hnd. apply nth_error_ext. intros k. rewrite nth_error_map. destruct (nth_error old k) as [y|] eqn:E; cbn.
  - rewrite (relab_seq old s k y Hnd E). symmetry. apply seqZ_nth. apply nth_error_Some. congruence.
  - symmetry. apply nth_error_None. rewrite seqZ_length. apply nth_error_None, E.
Qed.

(** ** merging *)
Fixpoint tnum (q : pcut) (s : Z) (fs : list pfile) (i : nat) (y : Z) : Z :=
  match fs with
  | [] => y
  | f :: t => match i with
              | O => relab (map c_id (kept q f)) (seqZ s (List.length (kept q f))) y
              | S j => tnum q (s + Z.of_nat (List.length (kept q f))) t j y
              end
  end.
Definition blk (q : pcut) (s : Z) (f : pfile) : block :=
  let r := relab (map c_id (kept q f)) (seqZ s (List.length (kept q f))) in
  mkBlock (map (fun c => cwith c (r (c_id c))) (kept q f)) (map (fun m => mwith m (r (m_id m))) (mem_of (kept q f) (f_mem f))) (map c_scale (f_cat f)).
Fixpoint blks (q : pcut) (s : Z) (fs : list pfile) : list block :=
  match fs with
  | [] => []
  | f :: t => if Nat.eqb (List.length (kept q f)) 0 then blks q s t else blk q s f :: blks q (s + Z.of_nat (List.length (kept q f))) t
  end.
Lemma NoDup_map_filter {A} (g : A -> Z) (p : A -> bool) l : NoDup (map g l) -> NoDup (map g (filter p l)).
Proof.
  induction l as [|a l IH]; cbn; intros H; [constructor|]. inversion H as [|? ? Hn Hd]; subst. destruct (p a); [|apply IH, Hd].
  cbn. constructor; [|apply IH, Hd]. intros Hin. apply Hn. apply in_map_iff in Hin. destruct Hin as [x [Hx1 Hx2]]. apply filter_In in Hx2. apply in_map_iff. exists x. tauto.
Qed.
Lemma kept_NoDup q f : file_ok q f -> NoDup (map c_id (kept q f)).
Proof. intros [H _]. apply NoDup_map_filter, H. Qed.
Lemma merge_ok q fs : (forall f, In f fs -> file_ok q f) -> forall s, merge q s fs = Ok (blks q s fs).
Proof.
  induction fs as [|f fs IH]; intros H s; [reflexivity|]. cbn [merge blks]. fold (kept q f).
  destruct (Nat.eqb_spec (List.length (kept q f)) 0) as [E0|E0]; [apply IH; intros; apply H; right; assumption|].
  pose proof (H f (or_introl eq_refl)) as Hf. destruct (kept q f) as [|c0 cs] eqn:Ek; [cbn in E0; lia|]. rewrite <- Ek in *.
  assert (Hne : kept q f <> []) by congruence.
  rewrite rematch_ok; [| | |apply kept_NoDup, Hf|rewrite seqZ_length, map_length; reflexivity].
  - cbn [bind fst snd]. 
    assert (Ht : np_take (map (fun m => mwith m (relab (map c_id (kept q f)) (seqZ s (List.length (kept q f))) (m_id m))) (f_mem f)) (np_where (fun m => is_in (m_id m) (map c_id (kept q f))) (f_mem f))
       = Ok (map (fun m => mwith m (relab (map c_id (kept q f)) (seqZ s (List.length (kept q f))) (m_id m))) (mem_of (kept q f) (f_mem f)))).
    { set (g := fun m => mwith m _). 
      assert (G : forall (l : list member) idx r, np_take l idx = Ok r -> np_take (map g l) idx = Ok (map g r)).
      { intros l idx. induction idx as [|i idx IHi]; intros r; cbn; [intros [= <-]; reflexivity|]. rewrite nth_error_map. destruct (nth_error l i); [|discriminate]. cbn.
        destruct (np_take l idx) as [r'|]; cbn; [|discriminate]. intros [= <-]. rewrite (IHi r' eq_refl). reflexivity. }
      apply G. rewrite np_take_ok; [f_equal; apply np_sel_where_filter|]. intros i Hi. apply np_where_spec in Hi. destruct Hi as [x [Hx _]]. apply nth_error_Some. congruence. }
    rewrite Ht. cbn [bind]. rewrite IH by (intros; apply H; right; assumption). cbn [bind]. do 2 f_equal. unfold blk. f_equal.
    rewrite <- set_cids_map. f_equal. rewrite <- (map_length c_id). symmetry. apply relab_all, kept_NoDup, Hf.
  - rewrite Ek. cbn. discriminate.
  - destruct Hf as [_ Hf]. destruct (Hf c0) as [m [Hm _]]; [rewrite Ek; left; reflexivity|]. intros E. rewrite E in Hm. destruct Hm.
Qed.

Lemma cats_shift q p num fs : forall i, cats_from q p num (S i) fs = cats_from q p (fun j => num (S j)) i fs.
Proof. induction fs as [|f fs IH]; intros i; cbn; [reflexivity|]. rewrite IH. reflexivity. Qed.
Lemma mems_shift q p num fs : forall i, mems_from q p num (S i) fs = mems_from q p (fun j => num (S j)) i fs.
Proof. induction fs as [|f fs IH]; intros i; cbn; [reflexivity|]. rewrite IH. reflexivity. Qed.
Lemma filter_all {A} (l : list A) : filter (fun _ => true) l = l.
Proof. induction l as [|a l IH]; cbn; [reflexivity|]. rewrite IH. reflexivity. Qed.
Lemma blks_cat q fs : forall s, concat (map b_cat (blks q s fs)) = cats_from q all_kept (tnum q s fs) 0 fs.
Proof.
  induction fs as [|f fs IH]; intros s; [reflexivity|]. cbn [blks cats_from]. rewrite cats_shift. unfold all_kept at 1. rewrite filter_all.
  cbn [tnum]. destruct (Nat.eqb_spec (List.length (kept q f)) 0) as [E|E].
  - assert (Ek : kept q f = []) by (destruct (kept q f); [reflexivity|cbn in E; lia]). rewrite Ek. cbn [List.length map app Z.of_nat]. rewrite Z.add_0_r. apply IH.
  - cbn [map concat b_cat blk]. rewrite IH. reflexivity.
Qed.
Lemma blks_mem q fs : forall s, concat (map b_mem (blks q s fs)) = mems_from q all_kept (tnum q s fs) 0 fs.
Proof.
  induction fs as [|f fs IH]; intros s; [reflexivity|]. cbn [blks mems_from]. rewrite mems_shift. unfold all_kept at 1. rewrite filter_all.
  cbn [tnum]. destruct (Nat.eqb_spec (List.length (kept q f)) 0) as [E|E].
  - assert (Ek : kept q f = []) by (destruct (kept q f); [reflexivity|cbn in E; lia]). rewrite Ek. cbn [List.length map app Z.of_nat]. rewrite Z.add_0_r.
    assert (E2 : mem_of [] (f_mem f) = []) by (unfold mem_of; cbn; induction (f_mem f); [reflexivity|assumption]). rewrite E2. apply IH.
  - cbn [map concat b_mem blk]. rewrite IH. reflexivity.
Qed.
Lemma cwith_id c i : c_id (cwith c i) = i. Proof. reflexivity. Qed.
Lemma blks_ids q fs : (forall f, In f fs -> file_ok q f) -> forall s,
  map c_id (cats_from q all_kept (tnum q s fs) 0 fs) = seqZ s (List.length (cats_from q all_kept (tnum q s fs) 0 fs)).
Proof.
  induction fs as [|f fs IH]; intros H s; [reflexivity|]. cbn [cats_from]. rewrite cats_shift. unfold all_kept at 1 3. rewrite !filter_all. cbn [tnum].
  rewrite map_app, app_length, map_map, map_length. cbn [c_id cwith]. rewrite seqZ_app. f_equal.
  - rewrite <- (map_map c_id (relab _ _)). rewrite <- (map_length c_id (kept q f)). apply relab_all, kept_NoDup, H. left; reflexivity.
  - apply IH. intros; apply H; right; assumption.
Qed.
(** relabelling composes *)
Lemma cats_relab q p num r fs : forall i, map (fun c => cwith c (r (c_id c))) (cats_from q p num i fs) = cats_from q p (fun j y => r (num j y)) i fs.
Proof.
  induction fs as [|f fs IH]; intros i; cbn; [reflexivity|]. rewrite map_app, map_map, IH. reflexivity.
Qed.
Lemma mems_relab q p num r fs : forall i, map (fun m => mwith m (r (m_id m))) (mems_from q p num i fs) = mems_from q p (fun j y => r (num j y)) i fs.
Proof.
  induction fs as [|f fs IH]; intros i; cbn; [reflexivity|]. rewrite map_app, map_map, IH. reflexivity.
Qed.

Lemma desc_take_sorted asort (cat : list cluster) sc : argsort_spec asort -> np_take cat (desc asort (map c_like cat)) = Ok sc ->
  Permutation sc cat /\ by_like sc.
Proof.
  intros HA H. split.
  - destruct cat as [|d cat0].
    + unfold desc in H. cbn in H. destruct (HA []) as [P _]. cbn in P. apply Permutation_sym, Permutation_nil in P. rewrite P in H. cbn in H. injection H as <-. constructor.
    + apply (take_perm (d :: cat0) _ sc d H). rewrite <- (map_length c_like (d :: cat0)). apply desc_perm, HA.
  - assert (G : forall i j a b, i < j -> nth_error sc i = Some a -> nth_error sc j = Some b -> (c_like b <= c_like a)%Q).
    { intros i j a b Hij Ha Hb. destruct (np_take_nth_inv _ _ _ _ _ H Ha) as [u [Hu Hxu]]. destruct (np_take_nth_inv _ _ _ _ _ H Hb) as [v [Hv Hyv]].
      apply (desc_sorted asort (map c_like cat) i j u v _ _ HA Hij Hu Hv); rewrite nth_error_map; [rewrite Hxu|rewrite Hyv]; reflexivity. }
    unfold by_like. clear -G. induction sc as [|a r IH]; constructor.
    + apply IH. intros i j x y Hij Hx Hy. apply (G (S i) (S j)); [lia|exact Hx|exact Hy].
    + rewrite Forall_forall. intros y Hy. apply In_nth_error in Hy. destruct Hy as [k Hk]. apply (G 0 (S k)); [lia|reflexivity|exact Hk].
Qed.
Lemma desc_take_total asort {A} (f : A -> Q) (l : list A) : argsort_spec asort -> exists r, np_take l (desc asort (map f l)) = Ok r.
Proof. intros HA. apply np_take_total. intros i Hi. apply (desc_In asort _ i HA) in Hi. rewrite map_length in Hi. exact Hi. Qed.

Lemma mems_nonempty q p num fs : (forall f, In f fs -> file_ok q f) -> forall i, cats_from q p num i fs <> [] -> mems_from q p num i fs <> [].
Proof.
  induction fs as [|f fs IH]; intros H i; cbn; [congruence|]. intros Hc Hm. apply app_eq_nil in Hm. destruct Hm as [Hm1 Hm2].
  destruct (filter p (kept q f)) as [|c cs] eqn:E.
  - cbn in Hc. apply (IH (fun f' H' => H f' (or_intror H')) (S i) Hc Hm2).
  - destruct (H f (or_introl eq_refl)) as [_ Hf].
    assert (Hin : In c (filter p (kept q f))) by (rewrite E; left; reflexivity).
    apply filter_In in Hin. destruct Hin as [Hin _]. destruct (Hf c Hin) as [m [Hmm Hid]].
    assert (In m (mem_of (c :: cs) (f_mem f))).
    { unfold mem_of. apply filter_In. split; [exact Hmm|]. cbn. rewrite Hid, Z.eqb_refl. reflexivity. }
    apply map_eq_nil in Hm1. rewrite Hm1 in H0. destruct H0.
Qed.

Lemma NoDup_perm {A} (l m : list A) : Permutation l m -> NoDup m -> NoDup l.
Proof. intros P H. apply (Permutation_NoDup (Permutation_sym P) H). Qed.

Lemma by_like_map (r : Z -> Z) sc : by_like sc -> by_like (map (fun c => cwith c (r (c_id c))) sc).
Proof.
  unfold by_like. intros S. induction S as [|c l S IH F]; cbn; constructor; [exact IH|].
  rewrite Forall_forall in *. intros y Hy. apply in_map_iff in Hy. destruct Hy as [x [<- Hx]]. cbn. apply F, Hx.
Qed.

Lemma consolidate_spec asort q fs : argsort_spec asort -> (forall f, In f fs -> file_ok q f) -> (exists f, In f fs /\ kept q f <> []) ->
  exists cat mem num, consolidate asort q fs = Ok (cat, mem) /\ map c_id cat = seqZ 1 (List.length cat) /\ by_like cat /\
    Permutation cat (cats_from q all_kept num 0 fs) /\ mem = mems_from q all_kept num 0 fs.
Proof.
  intros HA HF [f0 [Hf0 Hk0]]. unfold consolidate. destruct fs as [|f1 fs1] eqn:Efs; [destruct Hf0|]. rewrite <- Efs in *.
  rewrite (merge_ok q fs HF 1). cbn [bind]. set (T := tnum q 1 fs). set (C := cats_from q all_kept T 0 fs).
  assert (HC : concat (map b_cat (blks q 1 fs)) = C) by apply blks_cat. assert (HM : concat (map b_mem (blks q 1 fs)) = mems_from q all_kept T 0 fs) by apply blks_mem.
  assert (Hids : map c_id C = seqZ 1 (List.length C)) by (apply blks_ids, HF).
  assert (HCne : C <> []).
  { unfold C. clear -Hf0 Hk0. generalize T, 0. clear T. induction fs as [|f fs IH]; intros T n; [destruct Hf0|]. cbn. unfold all_kept at 1. rewrite filter_all. destruct Hf0 as [->|Hf0].
    - destruct (kept q f0); [congruence|]. discriminate.
    - intros E. apply app_eq_nil in E. apply (IH Hf0 _ _ (proj2 E)). }
  destruct (blks q 1 fs) as [|b bs] eqn:Eb; [cbn in HC; congruence|]. rewrite <- Eb in *. cbv zeta. rewrite HC, HM.
  destruct (desc_take_total asort c_like C HA) as [sc Esc]. rewrite Esc. cbn [bind].
  destruct (desc_take_sorted asort C sc HA Esc) as [P S]. pose proof (Permutation_length P) as HL.
  assert (PA : Permutation (map c_id sc) (seqZ 1 (List.length C))) by (rewrite <- Hids; apply Permutation_map, P).
  assert (NA : NoDup (map c_id sc)) by (apply (NoDup_perm _ _ PA), seqZ_NoDup).
  set (new := seqZ 1 (List.length sc)).
  assert (Hlen : List.length new = List.length (map c_id sc)) by (unfold new; rewrite seqZ_length, map_length; reflexivity).
  assert (Hscne : map c_id sc <> []). { intros E. apply map_eq_nil in E. rewrite E in P. apply Permutation_nil in P. congruence. }
  rewrite rematch_ok; [|exact Hscne|apply (mems_nonempty q all_kept T fs HF 0 HCne)|exact NA|exact Hlen].
  cbn [bind fst]. set (r := relab (map c_id sc) new).
  assert (Hset : set_cids sc new = map (fun c => cwith c (r (c_id c))) sc).
  { rewrite <- set_cids_map. f_equal. unfold r, new. rewrite <- (map_length c_id sc). symmetry. apply relab_all, NA. }
  exists (set_cids sc new), (map (fun m => mwith m (r (m_id m))) (mems_from q all_kept T 0 fs)), (fun i y => r (T i y)).
  split; [reflexivity|]. split; [|split; [|split]].
  - assert (E1 : map c_id (set_cids sc new) = new).
    { rewrite Hset, map_map. cbn [c_id cwith]. rewrite <- (map_map c_id r). unfold r, new. rewrite <- (map_length c_id sc). apply relab_all, NA. }
    rewrite E1, Hset, map_length. reflexivity.
  - rewrite Hset. apply by_like_map, S.
  - rewrite Hset. rewrite <- (cats_relab q all_kept T r fs 0). apply Permutation_map, P.
  - apply mems_relab.
Qed.

(** ** the task *)
Definition sel_mem (p : cluster -> bool) (b : block) : list member := mem_of (filter p (b_cat b)) (b_mem b).
Lemma mem_of_filter cs ms : mem_of cs ms = filter (fun m => is_in (m_id m) (map c_id cs)) ms. Proof. reflexivity. Qed.

Lemma np_take_where {A} (p : A -> bool) l : np_take l (np_where p l) = Ok (filter p l).
Proof. rewrite np_take_ok; [f_equal; apply np_sel_where_filter|]. intros i Hi. apply np_where_spec in Hi. destruct Hi as [x [Hx _]]. apply nth_error_Some. congruence. Qed.
Lemma np_take_map {A B} (g : A -> B) (l : list A) idx r : np_take l idx = Ok r -> np_take (map g l) idx = Ok (map g r).
Proof.
  revert r. induction idx as [|i idx IHi]; intros r; cbn; [intros [= <-]; reflexivity|]. rewrite nth_error_map. destruct (nth_error l i); [|discriminate]. cbn.
  destruct (np_take l idx) as [r'|]; cbn; [|discriminate]. intros [= <-]. rewrite (IHi r' eq_refl). reflexivity.
Qed.

Section Select.
  Variables (sel : bool) (zmax : Z -> Q) (minl : Q).
  Let p := passes sel zmax minl.
  Definition block_ok (b : block) : Prop :=
    cat_use sel zmax minl b = Ok (np_where p (b_cat b)) /\ NoDup (map c_id (b_cat b)) /\ b_mem b <> [] /\ b_cat b <> [].
  Lemma select_spec bs : (forall b, In b bs -> block_ok b) -> forall out,
    exists o, select sel zmax minl bs out = Ok o /\
      let c0 := match out with None => [] | Some x => fst x end in let m0 := match out with None => [] | Some x => snd x end in
      let cs := concat (map (fun b => filter p (b_cat b)) bs) in
      match o with
      | None => out = None /\ cs = []
      | Some (c, m) => (out = None -> cs <> []) /\ c = c0 ++ cs /\ (exists m1, m = m0 ++ m1 /\ incl (concat (map (sel_mem p) bs)) m1 /\
          ((out <> None \/ forall b, In b bs -> List.length (b_mem b) <> 1) -> m1 = concat (map (sel_mem p) bs)))
      end.
  Proof.
    induction bs as [|b bs IH]; intros H out.
    - exists out. split; [reflexivity|]. cbn. destruct out as [[c m]|]; cbn; [|auto]. split; [discriminate|]. rewrite app_nil_r. split; [reflexivity|].
      exists []. rewrite app_nil_r. repeat split. intros x Hx. exact Hx.
    - destruct (H b (or_introl eq_refl)) as (Hu & Hnd & Hm & Hc). cbn [select]. rewrite Hu. cbn [bind]. rewrite where_length.
      assert (Hbs : forall b', In b' bs -> block_ok b') by (intros; apply H; right; assumption).
      destruct (Nat.eqb_spec (List.length (filter p (b_cat b))) 0) as [E0|E0].
      + assert (Ef : filter p (b_cat b) = []) by (destruct (filter p (b_cat b)); [reflexivity|cbn in E0; lia]).
        assert (Es : sel_mem p b = []) by (unfold sel_mem, mem_of; rewrite Ef; cbn; clear; induction (b_mem b); [reflexivity|assumption]).
        destruct (IH Hbs out) as (o & Eo & Ho). exists o. split; [exact Eo|]. cbn [map concat]. rewrite Ef, Es. cbn [app]. cbv zeta in Ho |- *.
        destruct o as [[c m]|]; [|exact Ho]. destruct Ho as (H1 & H2 & m1 & H3 & H4 & H5). split; [exact H1|]. split; [exact H2|]. exists m1. split; [exact H3|]. split; [exact H4|].
        intros [G|G]; apply H5; [left; exact G|right; intros; apply G; right; assumption].
      + assert (Hfne : filter p (b_cat b) <> []) by (destruct (filter p (b_cat b)); [cbn in E0; lia|discriminate]).
        rewrite (np_take_map c_id _ _ _ (np_take_where p (b_cat b))). cbn [bind].
        destruct (eu_match_ok (map c_id (filter p (b_cat b))) (map m_id (b_mem b))) as [ab Eab].
        { intros E. apply map_eq_nil in E. congruence. } { intros E. apply map_eq_nil in E. congruence. } { apply NoDup_map_filter, Hnd. }
        rewrite Eab. cbn [bind]. destruct (eu_match_filter _ _ _ _ Eab) as [Ef1 Ef2].
        assert (Ems : np_take (b_mem b) (snd ab) = Ok (sel_mem p b)) by (rewrite np_take_ok by exact Ef2; rewrite Ef1; reflexivity).
        assert (Ecs : (if Nat.eqb (List.length (b_cat b)) 1 then Ok (b_cat b) else np_take (b_cat b) (np_where p (b_cat b))) = Ok (filter p (b_cat b))).
        { destruct (Nat.eqb_spec (List.length (b_cat b)) 1) as [E1|E1]; [|apply np_take_where]. f_equal.
          destruct (b_cat b) as [|c [|c' l]]; cbn in E1; try lia. cbn in Hfne |- *. destruct (p c); [reflexivity|congruence]. }
        rewrite np_take_where. destruct out as [[c0 m0]|].
        * cbn [bind]. rewrite Ems. cbn [bind]. destruct (IH Hbs (Some (c0 ++ filter p (b_cat b), m0 ++ sel_mem p b))) as (o & Eo & Ho). exists o. split; [exact Eo|].
          cbn [map concat fst snd] in *. cbv zeta in Ho |- *. destruct o as [[c m]|]; [|destruct Ho; discriminate].
          destruct Ho as (H1 & H2 & m1 & H3 & H4 & H5). split; [discriminate|]. rewrite <- app_assoc in H2, H3. split; [exact H2|].
          exists (sel_mem p b ++ m1). split; [exact H3|]. split; [apply incl_app; [apply incl_appl, incl_refl|apply incl_appr, H4]|].
          intros _. rewrite H5; [reflexivity|]. left; discriminate.
        * rewrite np_take_where in Ecs. rewrite Ecs. cbn [bind].
          rewrite Ems. set (ms := if Nat.eqb (List.length (b_mem b)) 1 then b_mem b else sel_mem p b).
          assert (Eif : (if Nat.eqb (List.length (b_mem b)) 1 then Ok (b_mem b) else Ok (sel_mem p b)) = Ok ms) by (unfold ms; destruct (Nat.eqb (List.length (b_mem b)) 1); reflexivity). rewrite Eif. clear Eif.
          cbn [bind]. destruct (IH Hbs (Some (filter p (b_cat b), ms))) as (o & Eo & Ho). exists o. split; [exact Eo|].
          cbn [map concat fst snd] in *. cbv zeta in Ho |- *. destruct o as [[c m]|]; [|destruct Ho; discriminate].
          destruct Ho as (H1 & H2 & m1 & H3 & H4 & H5). split; [intros _ E; apply app_eq_nil in E; tauto|]. split; [exact H2|].
          exists (ms ++ m1). split; [exact H3|]. assert (Hsub : incl (sel_mem p b) ms).
          { unfold ms. destruct (Nat.eqb (List.length (b_mem b)) 1); [|apply incl_refl]. unfold sel_mem, mem_of. intros x Hx. apply filter_In in Hx. apply Hx. }
          split; [apply incl_app; [apply incl_appl, Hsub|apply incl_appr, H4]|].
          intros [G|G]; [congruence|]. rewrite H5 by (left; discriminate). f_equal. unfold ms. destruct (Nat.eqb_spec (List.length (b_mem b)) 1) as [E1|_]; [|reflexivity].
          exfalso. apply (G b (or_introl eq_refl) E1).
  Qed.
End Select.

Lemma passes_cwith sel zmax minl c i : passes sel zmax minl (cwith c i) = passes sel zmax minl c. Proof. reflexivity. Qed.
Lemma filter_map_comm {A B} (f : A -> B) (p : B -> bool) l : filter p (map f l) = map f (filter (fun x => p (f x)) l).
Proof. induction l as [|a l IH]; cbn; [reflexivity|]. destruct (p (f a)); cbn; rewrite IH; reflexivity. Qed.

Lemma blks_sel_cat q p fs : (forall c i, p (cwith c i) = p c) -> forall s,
  concat (map (fun b => filter p (b_cat b)) (blks q s fs)) = cats_from q p (tnum q s fs) 0 fs.
Proof.
  intros Hp. induction fs as [|f fs IH]; intros s; [reflexivity|]. cbn [blks cats_from]. rewrite cats_shift.
  cbn [tnum]. destruct (Nat.eqb_spec (List.length (kept q f)) 0) as [E|E].
  - assert (Ek : kept q f = []) by (destruct (kept q f); [reflexivity|cbn in E; lia]). rewrite Ek. cbn [List.length map app Z.of_nat filter]. rewrite Z.add_0_r. apply IH.
  - cbn [map concat b_cat blk]. rewrite IH. f_equal. rewrite filter_map_comm. f_equal. apply filter_ext. intros c. apply Hp.
Qed.
Lemma relab_inj old s y y' : NoDup old -> In y old -> In y' old -> relab old (seqZ s (List.length old)) y = relab old (seqZ s (List.length old)) y' -> y = y'.
Proof.
  intros Hnd H1 H2 H. apply In_nth_error in H1, H2. destruct H1 as [k1 H1], H2 as [k2 H2].
  rewrite (relab_seq old s k1 y Hnd H1), (relab_seq old s k2 y' Hnd H2) in H. assert (k1 = k2) by lia. subst. congruence.
Qed.
Lemma blk_sel_mem q p s f : file_ok q f -> (forall c i, p (cwith c i) = p c) ->
  sel_mem p (blk q s f) = map (fun m => mwith m (relab (map c_id (kept q f)) (seqZ s (List.length (kept q f))) (m_id m))) (mem_of (filter p (kept q f)) (f_mem f)).
Proof.
  intros Hf Hp. pose proof (kept_NoDup q f Hf) as Hnd. unfold sel_mem, blk. cbn [b_cat b_mem].
  rewrite <- (map_length c_id (kept q f)). set (r := relab _ _).
  rewrite filter_map_comm. rewrite (filter_ext _ p) by (intros; apply Hp). unfold mem_of at 1. rewrite filter_map_comm. f_equal.
  cbn [m_id mwith]. rewrite map_map. cbn [c_id cwith].
  unfold mem_of. rewrite <- (filter_and (fun m => existsb (Z.eqb (m_id m)) (map c_id (kept q f)))).
  apply filter_ext. intros m.
  assert (Hsub : forall c, In c (filter p (kept q f)) -> In (c_id c) (map c_id (kept q f))).
  { intros c Hc. apply filter_In in Hc. apply in_map. apply Hc. }
  destruct (existsb (Z.eqb (m_id m)) (map c_id (filter p (kept q f)))) eqn:E1.
  - apply existsb_exists in E1. destruct E1 as [y [Hy1 Hy2]]. apply Z.eqb_eq in Hy2. subst y. apply in_map_iff in Hy1. destruct Hy1 as [c [Hc1 Hc2]].
    apply Bool.andb_true_iff. split; apply existsb_exists.
    + exists (m_id m). split; [rewrite <- Hc1; apply Hsub, Hc2|apply Z.eqb_refl].
    + exists (r (m_id m)). split; [|apply Z.eqb_refl]. apply in_map_iff. exists c. split; [rewrite Hc1; reflexivity|exact Hc2].
  - apply Bool.andb_false_iff. destruct (existsb (Z.eqb (m_id m)) (map c_id (kept q f))) eqn:E2; [right|left; reflexivity].
    destruct (existsb (Z.eqb (r (m_id m))) (map (fun x => r (c_id x)) (filter p (kept q f)))) eqn:E3; [|reflexivity]. exfalso.
    apply existsb_exists in E2, E3. destruct E2 as [y [Hy1 Hy2]]. apply Z.eqb_eq in Hy2. subst y. destruct E3 as [z [Hz1 Hz2]]. apply Z.eqb_eq in Hz2. subst z.
    apply in_map_iff in Hz1. destruct Hz1 as [c [Hc1 Hc2]]. assert (E : c_id c = m_id m) by (apply (relab_inj (map c_id (kept q f)) s _ _ Hnd (Hsub c Hc2) Hy1 Hc1)).
    assert (Ht : existsb (Z.eqb (m_id m)) (map c_id (filter p (kept q f))) = true); [|congruence].
    apply existsb_exists. exists (m_id m). split; [|apply Z.eqb_refl]. rewrite <- E. apply in_map, Hc2.
Qed.
Lemma blks_sel_mem q p fs : (forall f, In f fs -> file_ok q f) -> (forall c i, p (cwith c i) = p c) -> forall s,
  concat (map (sel_mem p) (blks q s fs)) = mems_from q p (tnum q s fs) 0 fs.
Proof.
  intros HF Hp. induction fs as [|f fs IH]; intros s; [reflexivity|]. cbn [blks mems_from]. rewrite mems_shift.
  cbn [tnum]. destruct (Nat.eqb_spec (List.length (kept q f)) 0) as [E|E].
  - assert (Ek : kept q f = []) by (destruct (kept q f); [reflexivity|cbn in E; lia]). rewrite Ek. cbn [List.length map app Z.of_nat filter]. rewrite Z.add_0_r.
    assert (E2 : mem_of [] (f_mem f) = []) by (unfold mem_of; cbn; induction (f_mem f); [reflexivity|assumption]). rewrite E2. apply IH. intros; apply HF; right; assumption.
  - cbn [map concat]. rewrite IH by (intros; apply HF; right; assumption). f_equal. apply blk_sel_mem; [apply HF; left; reflexivity|exact Hp].
Qed.
Lemma blks_In q fs b : forall s, In b (blks q s fs) -> exists f s', In f fs /\ kept q f <> [] /\ b = blk q s' f.
Proof.
  induction fs as [|f fs IH]; intros s; cbn; [tauto|]. destruct (Nat.eqb_spec (List.length (kept q f)) 0) as [E|E].
  - intros H. destruct (IH _ H) as (f' & s' & H1 & H2). exists f', s'. auto.
  - intros [<-|H].
    + exists f, s. split; [auto|]. split; [intros E2; rewrite E2 in E; cbn in E; lia|reflexivity].
    + destruct (IH _ H) as (f' & s' & H1 & H2). exists f', s'. auto.
Qed.
Lemma np_and_map {A} (f g : A -> bool) l : np_and (map f l) (map g l) = Ok (map (fun x => (f x && g x)%bool) l).
Proof. unfold np_and. rewrite !map_length, Nat.eqb_refl. f_equal. induction l as [|a l IH]; cbn; [reflexivity|]. rewrite IH. reflexivity. Qed.
Lemma np_div_map {A} (f g : A -> Q) l : np_div (map f l) (map g l) = Ok (map (fun x => (f x / g x)%Q) l).
Proof. unfold np_div. rewrite !map_length, Nat.eqb_refl. f_equal. induction l as [|a l IH]; cbn; [reflexivity|]. rewrite IH. reflexivity. Qed.

(** files whose division of richness by scale value is row by row *)
Definition aligned (sel : bool) (q : pcut) (f : pfile) : Prop := sel = true -> kept q f <> [] -> List.length (kept q f) = List.length (f_cat f).
Lemma filter_length_le' {A} (p : A -> bool) l : List.length (filter p l) <= List.length l.
Proof. induction l as [|a l IH]; cbn; [lia|]. destruct (p a); cbn; lia. Qed.
Lemma filter_len_all {A} (p : A -> bool) l : List.length (filter p l) = List.length l -> filter p l = l.
Proof.
  induction l as [|a l IH]; cbn; [reflexivity|]. pose proof (filter_length_le' p l). destruct (p a); cbn; intros H0; [rewrite IH by lia; reflexivity|lia].
Qed.
Lemma blk_use sel zmax minl q f s : aligned sel q f -> kept q f <> [] -> cat_use sel zmax minl (blk q s f) = Ok (np_where (passes sel zmax minl) (b_cat (blk q s f))).
Proof.
  intros HA Hne. unfold cat_use. set (B := b_cat (blk q s f)).
  assert (Hr : (if sel then np_div (map c_lambda B) (b_scale (blk q s f)) else Ok (map c_lambda B)) = Ok (map (fun c => if sel then (c_lambda c / c_scale c)%Q else c_lambda c) B)).
  { destruct sel; [|reflexivity]. assert (E : b_scale (blk q s f) = map c_scale B).
    { unfold B, blk. cbn. rewrite map_map. cbn. unfold kept. rewrite filter_len_all; [reflexivity|]. apply (HA eq_refl Hne). }
    rewrite E. apply np_div_map. }
  rewrite Hr. cbn [bind]. rewrite map_map, np_and_map. cbn [bind]. f_equal. unfold np_where. rewrite where_from_map. reflexivity.
Qed.

(** the numbers and the ranking do not depend on the cuts *)
Definition rank_cats (asort : list Q -> list nat) (q : pcut) (fs : list pfile) : list cluster :=
  let C := cats_from q all_kept (tnum q 0 fs) 0 fs in match np_take C (desc asort (map c_like C)) with Ok sc => sc | Err _ => [] end.
Definition rank_new (asort : list Q -> list nat) (q : pcut) (fs : list pfile) : Z -> Z :=
  let sc := rank_cats asort q fs in relab (map c_id sc) (seqZ 1 (List.length sc)).
Definition rank_num (asort : list Q -> list nat) (q : pcut) (fs : list pfile) : numbering := fun i y => rank_new asort q fs (tnum q 0 fs i y).
Definition ranked_cats (asort : list Q -> list nat) (q : pcut) (fs : list pfile) : list cluster := map (fun c => cwith c (rank_new asort q fs (c_id c))) (rank_cats asort q fs).
Lemma task_spec_num asort q sel zmax minl fs : argsort_spec asort -> (forall f, In f fs -> file_ok q f) -> (forall f, In f fs -> aligned sel q f) ->
  (exists f c, In f fs /\ In c (kept q f) /\ passes sel zmax minl c = true) -> let num := rank_num asort q fs in let ranked := ranked_cats asort q fs in
  exists mem, consolidate_task asort q sel zmax minl fs = Ok (cats_from q (passes sel zmax minl) num 0 fs, mem) /\
    incl (mems_from q (passes sel zmax minl) num 0 fs) mem /\
    ((forall f, In f fs -> List.length (mem_of (kept q f) (f_mem f)) <> 1) -> mem = mems_from q (passes sel zmax minl) num 0 fs) /\
    Permutation ranked (cats_from q all_kept num 0 fs) /\ map c_id ranked = seqZ 1 (List.length ranked) /\ by_like ranked.
Proof.
  intros HA HF HAl (f0 & c0 & Hf0 & Hc0 & Hp0). cbv zeta. set (p := passes sel zmax minl) in *.
  unfold consolidate_task. destruct fs as [|f1 fs1] eqn:Efs; [destruct Hf0|]. rewrite <- Efs in *.
  rewrite (merge_ok q fs HF 0). cbn [bind]. set (T := tnum q 0 fs). set (C := cats_from q all_kept T 0 fs).
  assert (HC : concat (map b_cat (blks q 0 fs)) = C) by apply blks_cat.
  assert (Hids : map c_id C = seqZ 0 (List.length C)) by (apply blks_ids, HF).
  assert (Hpw : forall c i, p (cwith c i) = p c) by (intros; reflexivity).
  assert (Hbo : forall b, In b (blks q 0 fs) -> block_ok sel zmax minl b).
  { intros b Hb. destruct (blks_In q fs b 0 Hb) as (f & s' & Hf & Hk & ->). pose proof (HF f Hf) as Hfo. pose proof (kept_NoDup q f Hfo) as Hnd.
    split; [apply blk_use; [apply HAl, Hf|exact Hk]|]. split; [|split].
    - cbn. rewrite map_map. cbn. rewrite <- (map_map c_id (relab _ _)), <- (map_length c_id (kept q f)), relab_all by exact Hnd. apply seqZ_NoDup.
    - cbn. destruct (kept q f) as [|c cs] eqn:Ek; [congruence|]. rewrite <- Ek. destruct Hfo as [_ Hfo]. destruct (Hfo c) as [m [Hm Hid]]; [rewrite Ek; left; reflexivity|].
      intros E. apply map_eq_nil in E. assert (Hin : In m (mem_of (kept q f) (f_mem f))); [|rewrite E in Hin; destruct Hin].
      apply filter_In. split; [exact Hm|]. apply existsb_exists. exists (c_id c). split; [apply in_map; rewrite Ek; left; reflexivity|]. rewrite Hid. apply Z.eqb_refl.
    - cbn. intros E. apply map_eq_nil in E. congruence. }
  destruct (select_spec sel zmax minl (blks q 0 fs) Hbo None) as (o & Eo & Ho). rewrite Eo. cbn [bind]. rewrite HC.
  fold p in Ho. cbv zeta in Ho. rewrite (blks_sel_cat q p fs Hpw 0), (blks_sel_mem q p fs HF Hpw 0) in Ho. fold T in Ho.
  assert (Hcs : cats_from q p T 0 fs <> []).
  { clear -Hf0 Hc0 Hp0. generalize T, 0. clear T. induction fs as [|f fs IH]; intros T n; [destruct Hf0|]. cbn. intros E. apply app_eq_nil in E. destruct E as [E1 E2]. destruct Hf0 as [->|Hf0].
    - apply map_eq_nil in E1. assert (Hin : In c0 (filter p (kept q f0))) by (apply filter_In; auto). rewrite E1 in Hin. destruct Hin.
    - apply (IH Hf0 _ _ E2). }
  assert (HCne : C <> []).
  { intros E. apply Hcs. unfold C in E. clear -E. revert E. generalize T, 0. clear T. induction fs as [|f fs IH]; intros T n; cbn; [reflexivity|]. intros E. apply app_eq_nil in E. destruct E as [E1 E2].
    unfold all_kept in E1. rewrite filter_all in E1. apply map_eq_nil in E1. rewrite E1. cbn. apply (IH _ _ E2). }
  destruct o as [[cs ms]|]; [|destruct Ho; congruence]. destruct Ho as (_ & Hcs' & m1 & Hms & Hincl & Hguard). cbn [app] in Hcs', Hms. subst cs ms.
  destruct (desc_take_total asort c_like C HA) as [sc Esc]. rewrite (np_take_map c_id _ _ _ Esc). cbn [bind].
  destruct (desc_take_sorted asort C sc HA Esc) as [P S]. pose proof (Permutation_length P) as HL.
  assert (PA : Permutation (map c_id sc) (seqZ 0 (List.length C))) by (rewrite <- Hids; apply Permutation_map, P).
  assert (NA : NoDup (map c_id sc)) by (apply (NoDup_perm _ _ PA), seqZ_NoDup).
  cbv zeta. rewrite <- HL. set (new := seqZ 1 (List.length sc)).
  assert (Hlen : List.length new = List.length (map c_id sc)) by (unfold new; rewrite seqZ_length, map_length; reflexivity).
  assert (Hscne : map c_id sc <> []). { intros E. apply map_eq_nil in E. rewrite E in P. apply Permutation_nil in P. congruence. }
  rewrite rematch_cat_ok by assumption. cbn [bind].
  assert (Hmne : m1 <> []).
  { pose proof (mems_nonempty q p T fs HF 0 Hcs) as Hmm. destruct (mems_from q p T 0 fs) as [|m l]; [congruence|]. intros E. rewrite E in Hincl. exact (Hincl m (or_introl eq_refl)). }
  rewrite rematch_ok by assumption. cbn [bind fst]. set (r := relab (map c_id sc) new).
  assert (Hsc : rank_cats asort q fs = sc) by (unfold rank_cats; cbv zeta; fold T; fold C; rewrite Esc; reflexivity). assert (Hr : rank_new asort q fs = r) by (unfold rank_new; rewrite Hsc; reflexivity).
  unfold rank_num, ranked_cats. rewrite Hr, Hsc. fold T. exists (map (fun m => mwith m (r (m_id m))) m1).
  split; [rewrite (cats_relab q p T r fs 0); reflexivity|]. split; [rewrite <- (mems_relab q p T r fs 0); apply incl_map, Hincl|]. split; [|split; [|split]].
  - intros G. rewrite <- (mems_relab q p T r fs 0). rewrite Hguard; [reflexivity|]. right. intros b Hb. destruct (blks_In q fs b 0 Hb) as (f & s' & Hf & _ & ->). cbn. rewrite map_length. apply G, Hf.
  - rewrite <- (cats_relab q all_kept T r fs 0). apply Permutation_map, P.
  - rewrite map_map, map_length. cbn [c_id cwith]. rewrite <- (map_map c_id r). unfold r, new. rewrite <- (map_length c_id sc). apply relab_all, NA.
  - apply by_like_map, S.
Qed.
Lemma task_spec asort q sel zmax minl fs : argsort_spec asort -> (forall f, In f fs -> file_ok q f) -> (forall f, In f fs -> aligned sel q f) ->
  (exists f c, In f fs /\ In c (kept q f) /\ passes sel zmax minl c = true) ->
  exists mem num ranked, consolidate_task asort q sel zmax minl fs = Ok (cats_from q (passes sel zmax minl) num 0 fs, mem) /\
    incl (mems_from q (passes sel zmax minl) num 0 fs) mem /\
    ((forall f, In f fs -> List.length (mem_of (kept q f) (f_mem f)) <> 1) -> mem = mems_from q (passes sel zmax minl) num 0 fs) /\
    Permutation ranked (cats_from q all_kept num 0 fs) /\ map c_id ranked = seqZ 1 (List.length ranked) /\ by_like ranked.
Proof. intros HA HF HAl HE. destruct (task_spec_num asort q sel zmax minl fs HA HF HAl HE) as (mem & H). exists mem, (rank_num asort q fs), (ranked_cats asort q fs). exact H. Qed.
