(** Proofs about random points. *)
From Coq Require Import QArith Lqa Permutation Sorting.Sorted.
From Verif.Base Require Import Py PyLemmas.
From Verif.Model Require Import Chunks Richness Randoms.
From Verif.Spec Require Import Galfile Randoms.
From Verif.Proofs Require Import Galfile Chunks Richness.
Local Open Scope nat_scope.

(** ** placing *)
Lemma place_total ps : forall zmax zz, List.length ps <= List.length zmax -> List.length ps <= List.length zz -> exists l, place ps zmax zz = Ok l.
Proof.
  induction ps as [|p ps IH]; intros zmax zz H1 H2; [eexists; reflexivity|].
  destruct zmax as [|m zmax]; [cbn in H1; lia|]. destruct zz as [|r zz]; [cbn in H2; lia|]. cbn in *.
  destruct (Qlt_bool (d_z r) m).
  - destruct (IH zmax zz ltac:(lia) ltac:(lia)) as [l ->]. eexists; reflexivity.
  - destruct (IH zmax (r :: zz) ltac:(lia) ltac:(cbn; lia)) as [l ->]. eexists; reflexivity.
Qed.
Lemma place_spec ps : forall zmax zz l, place ps zmax zz = Ok l ->
  map fst l = ps /\ forall i p d, nth_error l i = Some (p, Some d) -> In d zz /\ exists m, nth_error zmax i = Some m /\ (d_z d < m)%Q.
Proof.
  induction ps as [|p ps IH]; intros zmax zz l; cbn.
  - intros [= <-]. split; [reflexivity|]. intros [|i] p d H; discriminate.
  - destruct zmax as [|m zmax]; [discriminate|]. destruct zz as [|r zz]; [discriminate|].
    destruct (Qlt_bool (d_z r) m) eqn:E.
    + apply Qlt_bool_iff in E. destruct (place ps zmax zz) as [t|] eqn:Et; cbn; [|discriminate]. intros [= <-]. destruct (IH _ _ _ Et) as [H1 H2].
      split; [cbn; congruence|]. intros [|i] p' d H; cbn in H.
      * injection H as <- <-. split; [left; reflexivity|]. exists m. auto.
      * destruct (H2 i p' d H) as [H3 H4]. split; [right; exact H3|exact H4].
    + destruct (place ps zmax (r :: zz)) as [t|] eqn:Et; cbn; [|discriminate]. intros [= <-]. destruct (IH _ _ _ Et) as [H1 H2].
      split; [cbn; congruence|]. intros [|i] p' d H; cbn in H; [discriminate|]. exact (H2 i p' d H).
Qed.
Lemma placed_In l p d : In (p, d) (placed l) <-> In (p, Some d) l /\ (0 < d_z d)%Q.
Proof.
  induction l as [|[q [r|]] l IH]; cbn; [tauto| |].
  - destruct (Qlt_bool 0 (d_z r)) eqn:E.
    + apply Qlt_bool_iff in E. cbn. rewrite IH. split.
      * intros [[= -> ->]|[H1 H2]]; auto.
      * intros [[[= -> ->]|H1] H2]; auto.
    + apply Qlt_bool_false in E. rewrite IH. split; [tauto|]. intros [[[= -> ->]|H1] H2]; [lra|auto].
  - rewrite IH. split; [tauto|]. intros [[H|H] H2]; [discriminate|auto].
Qed.

Definition gdof (mask : maskfn) (r : round) : list nat :=
  np_where (fun uf : Q * (Q * Q) => Qlt_bool (fst uf) (snd (snd uf))) (combine (rd_u r) (map mask (rd_pos r))).
Lemma combine_nth_error {A B} (l : list A) (m : list B) i x y : nth_error (combine l m) i = Some (x, y) <-> nth_error l i = Some x /\ nth_error m i = Some y.
Proof.
  revert m i; induction l as [|a l IH]; intros [|b m] [|i]; cbn; try (split; [discriminate|intros [? ?]; discriminate]); try (split; [discriminate|tauto]).
  - split; [intros [= -> ->]; auto|intros [[= ->] [= ->]]; reflexivity].
  - apply IH.
Qed.
Lemma gdof_spec mask r i : In i (gdof mask r) -> exists u p, nth_error (rd_u r) i = Some u /\ nth_error (rd_pos r) i = Some p /\ (u < snd (mask p))%Q.
Proof.
  intros H. apply np_where_spec in H. destruct H as [[u v] [H1 H2]]. apply combine_nth_error in H1. destruct H1 as [H1 H3].
  rewrite nth_error_map in H3. destruct (nth_error (rd_pos r) i) as [p|] eqn:E; [|discriminate]. injection H3 as <-. cbn in H2.
  exists u, p. apply Qlt_bool_iff in H2. auto.
Qed.

Lemma round_spec reindex mask r : round_ok mask r -> exists good, one_round reindex mask r = Ok good /\
  (forall p d, In (p, d) good -> from_round mask r p d /\ (0 < d_z d)%Q /\ (0 < snd (mask p))%Q /\
     (exists q, In q (rd_pos r) /\ (d_z d < fst (mask q))%Q) /\ (reindex = true -> (d_z d < fst (mask p))%Q) /\
     ((forall q, In q (rd_pos r) -> (1 <= snd (mask q))%Q) -> (d_z d < fst (mask p))%Q)).
Proof.
  intros (L1 & L2 & L3). unfold one_round. cbv zeta. fold (gdof mask r) in L2 |- *.
  assert (Hin : forall i, In i (gdof mask r) -> i < List.length (rd_pos r)).
  { intros i Hi. destruct (gdof_spec mask r i Hi) as (u & p & _ & H & _). apply nth_error_Some. congruence. }
  destruct (np_take_total (rd_pos r) (gdof mask r) Hin) as [ps Eps]. rewrite Eps. cbn [bind].
  pose proof (np_take_len _ _ _ Eps) as Lps.
  assert (Hlen : List.length (gdof mask r) <= List.length (rd_pos r)).
  { rewrite <- (seq_length (List.length (rd_pos r)) 0). apply NoDup_incl_length; [apply np_where_NoDup|]. intros i Hi. apply in_seq. specialize (Hin i Hi). lia. }
  assert (Hz : exists zm, (if reindex then np_take (map fst (map mask (rd_pos r))) (gdof mask r) else Ok (map fst (map mask (rd_pos r)))) = Ok zm /\
      List.length ps <= List.length zm /\ forall i m, nth_error zm i = Some m ->
         (exists q, In q (rd_pos r) /\ m = fst (mask q)) /\ (reindex = true -> exists p, nth_error ps i = Some p /\ m = fst (mask p)) /\
         (reindex = false -> exists q, nth_error (rd_pos r) i = Some q /\ m = fst (mask q))).
  { rewrite map_map. destruct reindex.
    - destruct (np_take_total (map (fun x => fst (mask x)) (rd_pos r)) (gdof mask r)) as [zm Ezm]; [intros i Hi; rewrite map_length; apply Hin, Hi|].
      exists zm. split; [exact Ezm|]. split; [rewrite (np_take_len _ _ _ Ezm); lia|]. intros i m Hm.
      destruct (np_take_nth_inv _ _ _ _ _ Ezm Hm) as [a [Ha Hma]]. rewrite nth_error_map in Hma.
      destruct (nth_error (rd_pos r) a) as [q|] eqn:Eq; [|discriminate]. injection Hma as <-.
      split; [exists q; split; [eapply nth_error_In; exact Eq|reflexivity]|]. split; [|discriminate]. intros _.
      destruct (np_take_nth _ _ _ _ _ Eps Ha) as [x [Hx Hx']]. exists x. split; [exact Hx'|]. congruence.
    - eexists. split; [reflexivity|]. rewrite map_length. split; [lia|]. intros i m Hm. rewrite nth_error_map in Hm.
      destruct (nth_error (rd_pos r) i) as [q|] eqn:Eq; [|discriminate]. injection Hm as <-.
      split; [exists q; split; [eapply nth_error_In; exact Eq|reflexivity]|]. split; [discriminate|]. intros _. exists q. auto. }
  destruct Hz as (zm & Ezm & Lz & Pz). rewrite Ezm. cbn [bind].
  destruct (place_total ps zm (rd_draw r) Lz ltac:(lia)) as [l El]. rewrite El. cbn [bind]. exists (placed l). split; [reflexivity|].
  destruct (place_spec _ _ _ _ El) as [P1 P2]. intros p d Hpd. apply placed_In in Hpd. destruct Hpd as [Hpd Hpos].
  apply In_nth_error in Hpd. destruct Hpd as [i Hi]. destruct (P2 i p d Hi) as [Hd [m [Hm Hlt]]].
  assert (Hp : nth_error ps i = Some p) by (rewrite <- P1, nth_error_map, Hi; reflexivity).
  destruct (np_take_nth_inv _ _ _ _ _ Eps Hp) as [a [Ha Hpa]].
  destruct (gdof_spec mask r a (nth_error_In _ _ Ha)) as (u & p' & Hu & Hp' & Hlu). assert (p' = p) by congruence. subst p'.
  destruct (Pz i m Hm) as [[q [Hq ->]] [R1 R2]].
  split; [split; [exists u; split; [|exact Hlu]|exact Hd]|].
  { apply nth_error_In with a. apply combine_nth_error. auto. }
  split; [exact Hpos|]. split; [destruct (L3 u (nth_error_In _ _ Hu)); lra|]. split; [exists q; auto|]. split.
  - intros HR. destruct (R1 HR) as [p' [Hp'' Hm']]. assert (p' = p) by congruence. subst p'. rewrite <- Hm'. exact Hlt.
  - intros Hall. destruct reindex; [destruct (R1 eq_refl) as [p' [Hp'' Hm']]; assert (p' = p) by congruence; subst p'; rewrite <- Hm'; exact Hlt|].
    destruct (R2 eq_refl) as [q' [Hq' Hm']].
    (* all positions survive, so the i-th survivor is the i-th position *)
    assert (Hgd : gdof mask r = seq 0 (List.length (rd_pos r))).
    { clear -L1 L3 Hall. unfold gdof, np_where. generalize 0 as k. revert L1 L3 Hall. generalize (rd_u r) as us, (rd_pos r) as ps.
      intros us ps. revert us. induction ps as [|p ps IH]; intros [|u us] L1 L3 Hall k; cbn in *; try discriminate; try reflexivity.
      destruct (L3 u (or_introl eq_refl)) as [_ Hu]. specialize (Hall p (or_introl eq_refl)) as Hp.
      assert (E : Qlt_bool u (snd (mask p)) = true) by (apply Qlt_bool_iff; lra). rewrite E. f_equal.
      apply IH; [lia| |]; intros; [apply L3|apply Hall]; right; assumption. }
    rewrite Hgd in Ha. assert (a = i).
    { assert (Hai : a < List.length (rd_pos r)) by (apply nth_error_Some; congruence).
      assert (Hil : i < List.length (rd_pos r)) by (apply nth_error_Some; congruence).
      rewrite (nth_error_nth' (seq 0 (List.length (rd_pos r))) 0) in Ha by (rewrite seq_length; exact Hil). rewrite seq_nth in Ha by exact Hil.
      injection Ha as <-. lia. }
    subst a. assert (q' = p) by congruence. subst q'. rewrite <- Hm'. exact Hlt.
Qed.

Definition tabof (ctr k : nat) (good : list (pos * drawn)) : list row :=
  map (fun e => (fst e, fst (snd e), snd (snd e))) (combine (seq (ctr + 1) k) (firstn k good)).
Lemma tabof_no ctr k good : k <= List.length good -> map r_no (tabof ctr k good) = seq (ctr + 1) k.
Proof.
  intros H. unfold tabof. rewrite map_map. cbn.
  assert (G : forall (l : list nat) (m : list (pos * drawn)), List.length l = List.length m -> map (fun x => r_no (fst x, fst (snd x), snd (snd x))) (combine l m) = l).
  { induction l as [|a l IH]; intros [|b m] E; cbn in *; try discriminate; [reflexivity|]. rewrite IH by lia. reflexivity. }
  apply G. rewrite seq_length, firstn_length. lia.
Qed.
Lemma tabof_In ctr k good x : In x (tabof ctr k good) -> In (r_pos x, snd x) good.
Proof.
  unfold tabof. intros H. apply in_map_iff in H. destruct H as [[n [p d]] [<- H]]. cbn. apply in_combine_r in H.
  rewrite <- (firstn_skipn k good). apply in_or_app. left. exact H.
Qed.

Lemma loop_spec reindex mask (P : row -> Prop) rounds : (forall r, In r rounds -> round_ok mask r) ->
  (forall r good x, In r rounds -> one_round reindex mask r = Ok good -> In (r_pos x, snd x) good -> P x) ->
  forall n ctr acc, map r_no acc = seq 1 ctr -> (forall x, In x acc -> P x) ->
  exists o, rand_loop reindex mask rounds n ctr acc = Ok o /\
    forall out, o = Some out -> map r_no out = seq 1 (ctr + n) /\ forall x, In x out -> P x.
Proof.
  intros HR HP. induction rounds as [|r rounds IH]; intros n ctr acc Hn Ha.
  - destruct n; cbn.
    + eexists. split; [reflexivity|]. intros out [= <-]. rewrite Nat.add_0_r. auto.
    + eexists. split; [reflexivity|]. discriminate.
  - destruct n as [|n]; cbn [rand_loop].
    + eexists. split; [reflexivity|]. intros out [= <-]. rewrite Nat.add_0_r. auto.
    + destruct (round_spec reindex mask r (HR r (or_introl eq_refl))) as [good [Eg _]]. rewrite Eg. cbn [bind]. cbv zeta.
      set (k := Nat.min (List.length good) (S n)). fold (tabof ctr k good).
      destruct (IH (fun r' H => HR r' (or_intror H)) (fun r' g x H => HP r' g x (or_intror H)) (S n - k) (ctr + k) (acc ++ tabof ctr k good)) as (o & Eo & Ho).
      * rewrite map_app, Hn, tabof_no by lia. replace (ctr + 1) with (1 + ctr) by lia. symmetry. apply seq_app.
      * intros x Hx. apply in_app_or in Hx. destruct Hx as [Hx|Hx]; [apply Ha, Hx|]. apply (HP r good x (or_introl eq_refl) Eg). apply (tabof_In _ _ _ _ Hx).
      * exists o. split; [exact Eo|]. intros out E. destruct (Ho out E) as [H1 H2]. split; [|exact H2]. rewrite H1. f_equal. lia.
Qed.

Lemma loop_never reindex mask rounds : (forall r, In r rounds -> one_round reindex mask r = Ok []) ->
  forall n ctr acc, 0 < n -> rand_loop reindex mask rounds n ctr acc = Ok None.
Proof.
  induction rounds as [|r rounds IH]; intros H n ctr acc Hn; destruct n as [|n]; try lia; cbn; [reflexivity|].
  rewrite (H r (or_introl eq_refl)). cbn. apply IH; [intros; apply H; right; assumption|lia].
Qed.
Lemma loop_progress reindex mask rounds : (forall r, In r rounds -> exists x good, one_round reindex mask r = Ok (x :: good)) ->
  forall n ctr acc, n <= List.length rounds -> exists out, rand_loop reindex mask rounds n ctr acc = Ok (Some out).
Proof.
  induction rounds as [|r rounds IH]; intros H n ctr acc Hn; destruct n as [|n]; cbn in *; try lia; try (eexists; reflexivity).
  destruct (H r (or_introl eq_refl)) as (x & good & E). rewrite E. cbn [bind]. apply IH; [intros; apply H; right; assumption|]. cbn. lia.
Qed.

(** ** weights *)
Definition sel_cut {A} (a1 : list Z) (cat : list A) (q : A -> bool) (y : Z) : bool :=
  match index_ofZ y a1 with Some i => match nth_error cat i with Some k => q k | None => false end | None => false end.
Lemma match_where {A} (a1 : list Z) (cat : list A) (q : A -> bool) a2 : forall j ks, np_take cat (fst (match_from a1 j a2)) = Ok ks ->
  np_sel (snd (match_from a1 j a2)) (np_where q ks) = where_from (sel_cut a1 cat q) j a2.
Proof.
  induction a2 as [|y t IH]; intros j ks; cbn [match_from].
  - cbn. intros [= <-]. reflexivity.
  - specialize (IH (S j)). destruct (match_from a1 (S j) t) as [s1 s2]. cbn [fst snd] in IH. cbn [where_from].
    unfold sel_cut at 1. destruct (index_ofZ y a1) as [i|] eqn:Ei; cbn [fst snd].
    + cbn. destruct (nth_error cat i) as [k|] eqn:Ek; [|discriminate]. destruct (np_take cat s1) as [ks'|] eqn:Et; cbn; [|discriminate].
      intros [= <-]. specialize (IH ks' eq_refl). unfold np_where in *. cbn [where_from]. rewrite where_from_shift. destruct (q k); cbn [np_sel nth_error]; rewrite np_sel_shift, IH; reflexivity.
    + intros H. apply IH, H.
Qed.

Lemma all_use_spec c cat rand rows : all_use c cat rand = Ok rows ->
  rows = filter (fun p => sel_cut (map k_id cat) cat (clus_cut c) (p_id p)) (filter (in_zrange c) rand).
Proof.
  unfold all_use. cbv zeta. fold (in_zrange c). set (zuse := filter (in_zrange c) rand).
  change (filter (fun p : rpoint => (Qlt_bool (w_z0 c) (p_z p) && Qlt_bool (p_z p) (w_z1 c))%bool) rand) with zuse.
  destruct (Nat.eqb (List.length zuse) 0); [discriminate|].
  destruct (eu_match (map k_id cat) (uniqueZ (map p_id zuse))) as [m|]; cbn [bind]; [|discriminate].
  destruct (Nat.ltb _ _); [discriminate|].
  destruct (eu_match (map k_id cat) (map p_id zuse)) as [ab|] eqn:Em; cbn [bind]; [|discriminate].
  destruct (np_take cat (fst ab)) as [ks|] eqn:Ek; cbn [bind]; [|discriminate].
  destruct (Nat.eqb _ 0); [discriminate|].
  destruct (np_take (snd ab) _) as [bl|] eqn:Eb; cbn [bind]; [|discriminate].
  intros H. unfold eu_match in Em. destruct (_ || _); [discriminate|]. destruct (nodupZ (map k_id cat)); [|discriminate]. injection Em as <-.
  apply np_take_sel in Eb. rewrite (match_where (map k_id cat) cat (clus_cut c) _ 0 ks Ek) in Eb. rewrite where_from_map in Eb.
  apply np_take_sel in H. rewrite <- H, <- Eb. apply np_sel_where_filter.
Qed.

Lemma sel_cut_spec c cat y : NoDup (map k_id cat) -> sel_cut (map k_id cat) cat (clus_cut c) y = true <-> exists k, In k cat /\ k_id k = y /\ clus_cut c k = true.
Proof.
  intros Hnd. unfold sel_cut. split.
  - destruct (index_ofZ y (map k_id cat)) as [i|] eqn:E; [|discriminate]. apply index_ofZ_nth in E. rewrite nth_error_map in E.
    destruct (nth_error cat i) as [k|] eqn:Ek; [|discriminate]. injection E as <-. intros H. exists k. split; [eapply nth_error_In; exact Ek|]. auto.
  - intros [k [Hk [<- Hc]]]. destruct (index_ofZ_In (k_id k) (map k_id cat) (in_map k_id _ _ Hk)) as [i Ei]. rewrite Ei.
    apply index_ofZ_nth in Ei. rewrite nth_error_map in Ei. destruct (nth_error cat i) as [k'|] eqn:Ek; [|discriminate]. injection Ei as Ei.
    assert (k' = k); [|subst; exact Hc].
    apply In_nth_error in Hk. destruct Hk as [j Hj].
    assert (i = j). { apply (proj1 (NoDup_nth_error (map k_id cat)) Hnd); [rewrite map_length; apply nth_error_Some; congruence|]. rewrite !nth_error_map, Ek, Hj. cbn. congruence. }
    congruence.
Qed.

Lemma where_filter {A} (q g : A -> bool) (l pre : list A) :
  filter (fun j => match nth_error (pre ++ l) j with Some p => g p | None => false end) (where_from q (List.length pre) l)
  = where_from (fun p => (q p && g p)%bool) (List.length pre) l.
Proof.
  revert pre; induction l as [|a l IH]; intros pre; [reflexivity|]. cbn [where_from].
  specialize (IH (pre ++ [a])). rewrite app_length in IH. cbn [List.length] in IH. rewrite Nat.add_1_r, <- app_assoc in IH. cbn [app] in IH.
  destruct (q a); cbn [andb filter]; [|exact IH].
  rewrite nth_error_app2, Nat.sub_diag by lia. cbn [nth_error]. destruct (g a); [f_equal|]; exact IH.
Qed.
Lemma where_filter0 {A} (q g : A -> bool) (l : list A) :
  filter (fun j => match nth_error l j with Some p => g p | None => false end) (np_where q l) = np_where (fun p => (q p && g p)%bool) l.
Proof. apply (where_filter q g l []). Qed.
Lemma where_length {A} (q : A -> bool) (l : list A) : List.length (np_where q l) = List.length (filter q l).
Proof.
  rewrite <- np_sel_where_filter. symmetry. apply np_sel_length. intros i Hi. apply np_where_spec in Hi. destruct Hi as [x [H _]]. apply nth_error_Some. congruence.
Qed.

Definition nall (rows : list rpoint) (i : Z) : nat := List.length (of_cluster i rows).
Definition ngood (c : wconf) (rows : list rpoint) (i : Z) : nat := List.length (filter (point_cut c) (of_cluster i rows)).
Definition wt (c : wconf) (rows : list rpoint) (p : rpoint) : Q :=
  if point_cut c p then (inject_Z (Z.of_nat (nall rows (p_id p))) / inject_Z (Z.of_nat (ngood c rows (p_id p))))%Q else 0%Q.

Lemma weigh_length c rows ids : forall w, List.length (weigh_groups c rows ids w) = List.length w.
Proof. induction ids as [|i ids IH]; intros w; cbn [weigh_groups]; [reflexivity|]. rewrite IH. apply scatter_length. Qed.
Lemma filter_and {A} (q g : A -> bool) l : filter (fun p => (q p && g p)%bool) l = filter g (filter q l).
Proof. induction l as [|a l IH]; cbn; [reflexivity|]. destruct (q a); cbn; [destruct (g a); rewrite IH; reflexivity|exact IH]. Qed.
Lemma weigh_nth c rows ids : NoDup ids -> forall w j p, List.length w = List.length rows -> nth_error rows j = Some p ->
  nth_error (weigh_groups c rows ids w) j = if (is_in (p_id p) ids && point_cut c p)%bool then Some (wt c rows p) else nth_error w j.
Proof.
  induction ids as [|i ids IH]; intros Hnd w j p Hl Hj; [reflexivity|]. cbn [weigh_groups].
  inversion Hnd as [|? ? Hni Hnd']; subst. rewrite where_filter0.
  set (gd := np_where (fun p0 => (Z.eqb (p_id p0) i && point_cut c p0)%bool) rows).
  set (v := (inject_Z _ / inject_Z _)%Q).
  rewrite (IH Hnd' _ j p); [|rewrite scatter_length; exact Hl|exact Hj].
  assert (Hv : p_id p = i -> v = (inject_Z (Z.of_nat (nall rows (p_id p))) / inject_Z (Z.of_nat (ngood c rows (p_id p))))%Q).
  { intros E. unfold v, gd. rewrite !where_length, filter_and, E. reflexivity. }
  assert (Hm : map fst (map (fun j0 => (j0, v)) gd) = gd) by (rewrite map_map; cbn; apply map_id).
  assert (Hgd : In j gd <-> p_id p = i /\ point_cut c p = true).
  { unfold gd. rewrite np_where_spec. split.
    - intros [x [Hx H]]. assert (x = p) by congruence. subst x. apply Bool.andb_true_iff in H. rewrite Z.eqb_eq in H. exact H.
    - intros [H1 H2]. exists p. split; [exact Hj|]. rewrite H2, (proj2 (Z.eqb_eq _ _) H1). reflexivity. }
  destruct (is_in (p_id p) ids && point_cut c p)%bool eqn:E1.
  - apply Bool.andb_true_iff in E1. destruct E1 as [E1 E2]. rewrite E2. unfold is_in in *. cbn [existsb]. rewrite E1, Bool.orb_true_r. reflexivity.
  - destruct (is_in (p_id p) (i :: ids) && point_cut c p)%bool eqn:E2.
    + apply Bool.andb_true_iff in E2. destruct E2 as [E2 E3]. apply is_in_iff in E2. destruct E2 as [E2|E2].
      * assert (Hjg : In j gd) by (apply Hgd; auto). apply In_nth_error in Hjg. destruct Hjg as [k Hk].
        rewrite (scatter_in _ k j v); [unfold wt; rewrite E3, Hv by auto; reflexivity| | |].
        -- rewrite Hm. apply np_where_NoDup.
        -- rewrite nth_error_map, Hk. reflexivity.
        -- rewrite Hl. apply nth_error_Some. congruence.
      * apply is_in_iff in E2. rewrite E2, E3 in E1. discriminate.
    + apply scatter_notin. rewrite Hm. intros H. apply Hgd in H. destruct H as [H1 H2]. rewrite H2 in E2.
      assert (E : is_in (p_id p) (i :: ids) = true) by (apply is_in_iff; left; auto). rewrite E in E2. discriminate.
Qed.

Lemma uniqueZ_NoDup l : NoDup (uniqueZ l).
Proof.
  pose proof (uniqueZ_sorted l) as H. induction H as [|x l' H IH Hf]; constructor; [|exact IH].
  intros Hin. rewrite Forall_forall in Hf. specialize (Hf x Hin). lia.
Qed.
Lemma weighted_rows c rows :
  combine rows (weigh_groups c rows (uniqueZ (map p_id rows)) (repeat 0%Q (List.length rows))) = map (fun p => (p, wt c rows p)) rows.
Proof.
  assert (H : weigh_groups c rows (uniqueZ (map p_id rows)) (repeat 0%Q (List.length rows)) = map (wt c rows) rows).
  { apply nth_error_ext. intros j. rewrite nth_error_map.
    destruct (nth_error rows j) as [p|] eqn:E; cbn.
    - rewrite (weigh_nth c rows _ (uniqueZ_NoDup _) _ j p (repeat_length _ _) E).
      assert (Hi : is_in (p_id p) (uniqueZ (map p_id rows)) = true) by (apply is_in_iff, uniqueZ_In, in_map; eapply nth_error_In; exact E).
      rewrite Hi. cbn [andb]. unfold wt at 2. destruct (point_cut c p) eqn:Ec; [unfold wt; rewrite Ec; reflexivity|].
      apply nth_error_repeat. apply nth_error_Some. congruence.
    - apply nth_error_None. rewrite weigh_length, repeat_length. apply nth_error_None. exact E. }
  rewrite H. clear H. generalize (wt c rows) as f. intros f. induction rows as [|p rows IH]; cbn; [reflexivity|]. rewrite IH. reflexivity.
Qed.
Lemma wt_pos c rows p : In p rows -> (Qlt_bool 0 (wt c rows p) = point_cut c p).
Proof.
  intros Hp. unfold wt. destruct (point_cut c p) eqn:E; [|reflexivity]. apply Qlt_bool_iff.
  assert (H1 : In p (filter (point_cut c) (of_cluster (p_id p) rows))).
  { apply filter_In. split; [|exact E]. apply filter_In. split; [exact Hp|apply Z.eqb_refl]. }
  assert (H2 : 0 < ngood c rows (p_id p)) by (unfold ngood; destruct (filter _ _); [destruct H1|cbn; lia]).
  assert (H3 : 0 < nall rows (p_id p)).
  { unfold nall. apply filter_In in H1. destruct H1 as [H1 _]. destruct (of_cluster _ _); [destruct H1|cbn; lia]. }
  assert (Q1 : (0 < inject_Z (Z.of_nat (nall rows (p_id p))))%Q) by (change 0%Q with (inject_Z 0); rewrite <- Zlt_Qlt; lia).
  assert (Q2 : (0 < inject_Z (Z.of_nat (ngood c rows (p_id p))))%Q) by (change 0%Q with (inject_Z 0); rewrite <- Zlt_Qlt; lia).
  unfold Qdiv. apply Qmult_lt_0_compat; [exact Q1|]. apply Qinv_lt_0_compat, Q2.
Qed.
Lemma filter_map_pair {A B} (f : A -> B) (q : B -> bool) l : filter (fun x => q (snd x)) (map (fun p => (p, f p)) l) = map (fun p => (p, f p)) (filter (fun p => q (f p)) l).
Proof. induction l as [|a l IH]; cbn; [reflexivity|]. destruct (q (f a)); cbn; rewrite IH; reflexivity. Qed.
Lemma weight_out c cat rand out : weight_randoms c cat rand = Ok out -> exists rows, all_use c cat rand = Ok rows /\
  out = map (fun p => (p, wt c rows p)) (filter (point_cut c) rows).
Proof.
  unfold weight_randoms. destruct (all_use c cat rand) as [rows|] eqn:E; cbn [bind]; [|discriminate]. cbv zeta.
  rewrite weighted_rows. intros [= <-]. exists rows. split; [reflexivity|].
  rewrite (filter_map_pair (wt c rows) (fun v => Qlt_bool 0 v)). f_equal.
  apply filter_ext_in. intros p Hp. apply wt_pos, Hp.
Qed.
Lemma Qsum_const {A} (v : Q) (l : list A) : (Qsum (map (fun _ => v) l) == inject_Z (Z.of_nat (List.length l)) * v)%Q.
Proof.
  induction l as [|a l IH]; [cbn; ring|]. cbn [map Qsum List.length]. rewrite IH, Nat2Z.inj_succ. unfold Z.succ. rewrite inject_Z_plus. ring.
Qed.
Lemma filter_swap {A} (f g : A -> bool) l : filter f (filter g l) = filter g (filter f l).
Proof. rewrite <- !filter_and. apply filter_ext. intros a. apply Bool.andb_comm. Qed.
Lemma group_sum c rows i out : out = map (fun p => (p, wt c rows p)) (filter (point_cut c) rows) ->
  let kept := filter (fun rw => Z.eqb (p_id (fst rw)) i) out in
  map fst kept = filter (point_cut c) (of_cluster i rows) /\ (kept <> [] -> (Qsum (map snd kept) == inject_Z (Z.of_nat (nall rows i)))%Q).
Proof.
  intros -> kept.
  assert (E : kept = map (fun p => (p, wt c rows p)) (filter (point_cut c) (of_cluster i rows))).
  { unfold kept, of_cluster. rewrite filter_swap. generalize (filter (point_cut c) rows) as l. induction l as [|a l IH]; cbn; [reflexivity|]. destruct (Z.eqb (p_id a) i); cbn; rewrite IH; reflexivity. }
  rewrite E. split; [rewrite map_map; cbn; apply map_id|]. intros Hne. rewrite map_map. cbn [snd].
  assert (Hc : map (fun x => wt c rows x) (filter (point_cut c) (of_cluster i rows)) =
    map (fun _ => (inject_Z (Z.of_nat (nall rows i)) / inject_Z (Z.of_nat (ngood c rows i)))%Q) (filter (point_cut c) (of_cluster i rows))).
  { apply map_ext_in. intros p Hp. apply filter_In in Hp. destruct Hp as [H1 H2]. apply filter_In in H1. destruct H1 as [_ H1]. apply Z.eqb_eq in H1.
    unfold wt. rewrite H2, H1. reflexivity. }
  rewrite Hc, Qsum_const. fold (ngood c rows i).
  assert (0 < ngood c rows i). { unfold ngood. destruct (filter (point_cut c) (of_cluster i rows)); [exfalso; apply Hne; reflexivity|cbn; lia]. }
  field. change 0%Q with (inject_Z 0). rewrite inject_Z_injective. lia.
Qed.

(** ** errors of the weighting *)
Lemma filter_full {A} (p : A -> bool) l : List.length l <= List.length (filter p l) -> filter p l = l.
Proof.
  induction l as [|x l IH]; intros H; [reflexivity|]. cbn [filter] in *. assert (L : List.length (filter p l) <= List.length l).
  { clear. induction l as [|x l IH]; [cbn; lia|]. cbn [filter]. destruct (p x); cbn [List.length]; lia. }
  destruct (p x); cbn [List.length] in H; [|lia]. f_equal. apply IH. lia.
Qed.
Lemma where_no {A} (p : A -> bool) l : (forall x, In x l -> p x = false) -> np_where p l = [].
Proof. unfold np_where. generalize 0%nat. induction l as [|x l IH]; intros i H; cbn; [reflexivity|]. rewrite (H x (or_introl eq_refl)). apply IH. intros; apply H; right; assumption. Qed.
Lemma index_lt y l : forall i, index_ofZ y l = Some i -> nth_error l i = Some y.
Proof.
  induction l as [|x l IH]; intros i H; [discriminate|]. cbn in H. destruct (Z.eqb_spec y x) as [->|N]; [injection H as <-; reflexivity|].
  destruct (index_ofZ y l) as [j|]; [|discriminate]. injection H as <-. cbn. apply IH. reflexivity.
Qed.
Lemma match_fst a1 a2 : forall j i, In i (fst (match_from a1 j a2)) -> exists y, In y a2 /\ nth_error a1 i = Some y.
Proof.
  induction a2 as [|y a2 IH]; intros j i H; [destruct H|]. cbn [match_from] in H. destruct (match_from a1 (S j) a2) as [s1 s2] eqn:E. specialize (IH (S j) i). rewrite E in IH. cbn [fst] in IH.
  destruct (index_ofZ y a1) as [k|] eqn:K; cbn [fst] in H.
  - destruct H as [<-|H]; [exists y; split; [left; reflexivity|apply index_lt, K]|]. destruct (IH H) as (z & A & B). exists z. split; [right; exact A|exact B].
  - destruct (IH H) as (z & A & B). exists z. split; [right; exact A|exact B].
Qed.
