(** C34, C35: random points and their weights. *)
From Coq Require Import QArith Lqa.
From Verif.Base Require Import Py PyLemmas.
From Verif.Model Require Import Randoms.
From Verif.Spec Require Import Randoms.
From Verif.Proofs Require Galfile.
From Verif.Model Require Import Chunks.
From Verif.Proofs Require Import Chunks Randoms.
Local Open Scope nat_scope.

(** Whatever is drawn, if the loop ends there are exactly nrandoms rows with ids 1..nrandoms, every position is one
    drawn inside the mask that survived the good-fraction test, with a positive redshift of a drawn cluster.
    Missing: the maximum redshift at the point's own position. *)
Theorem C34_count_partial : forall mask rounds n, (forall r, In r rounds -> round_ok mask r) ->
  exists o, generate_randoms mask rounds n = Ok o /\ forall out, o = Some out ->
    List.length out = n /\ map r_no out = seq 1 n /\
    forall x, In x out -> (0 < r_z x)%Q /\ (0 < snd (mask (r_pos x)))%Q /\ exists r, In r rounds /\ from_round mask r (r_pos x) (snd x).
Proof.
  intros mask rounds n HR. unfold generate_randoms.
  destruct (loop_spec false mask (fun x => (0 < r_z x)%Q /\ (0 < snd (mask (r_pos x)))%Q /\ exists r, In r rounds /\ from_round mask r (r_pos x) (snd x)) rounds HR) with (n := n) (ctr := 0) (acc := @nil row)
    as (o & E & H).
  - intros r good x Hr Eg Hx. destruct (round_spec false mask r (HR r Hr)) as (good' & Eg' & P). assert (good' = good) by congruence. subst good'.
    destruct (P _ _ Hx) as (P1 & P2 & P3 & _). split; [exact P2|]. split; [exact P3|]. exists r. auto.
  - reflexivity.
  - intros x [].
  - exists o. split; [exact E|]. intros out Ho. destruct (H out Ho) as [H1 H2]. cbn [Nat.add] in H1. split; [|auto].
    rewrite <- (map_length r_no), H1. apply seq_length.
Qed.
Print Assumptions C34_count_partial.
(** The redmagic version also keeps every redshift below the limit at the point's own position. *)
Theorem C34_redmagic : forall mask rounds n, (forall r, In r rounds -> round_ok mask r) ->
  exists o, redmagic_randoms mask rounds n = Ok o /\ forall out, o = Some out ->
    List.length out = n /\ map r_no out = seq 1 n /\
    forall x, In x out -> (0 < r_z x)%Q /\ (0 < snd (mask (r_pos x)))%Q /\ (r_z x < fst (mask (r_pos x)))%Q /\
      exists r, In r rounds /\ from_round mask r (r_pos x) (snd x).
Proof.
  intros mask rounds n HR. unfold redmagic_randoms.
  destruct (loop_spec true mask (fun x => (0 < r_z x)%Q /\ (0 < snd (mask (r_pos x)))%Q /\ (r_z x < fst (mask (r_pos x)))%Q /\ exists r, In r rounds /\ from_round mask r (r_pos x) (snd x)) rounds HR) with (n := n) (ctr := 0) (acc := @nil row)
    as (o & E & H).
  - intros r good x Hr Eg Hx. destruct (round_spec true mask r (HR r Hr)) as (good' & Eg' & P). assert (good' = good) by congruence. subst good'.
    destruct (P _ _ Hx) as (P1 & P2 & P3 & _ & P4 & _). split; [exact P2|]. split; [exact P3|]. split; [apply P4; reflexivity|]. exists r. auto.
  - reflexivity.
  - intros x [].
  - exists o. split; [exact E|]. intros out Ho. destruct (H out Ho) as [H1 H2]. cbn [Nat.add] in H1. split; [|auto].
    rewrite <- (map_length r_no), H1. apply seq_length.
Qed.
Print Assumptions C34_redmagic.
(** For clusters the same holds when every drawn position is entirely good. *)
Theorem C34_no_holes_partial : forall mask rounds n, (forall r, In r rounds -> round_ok mask r) ->
  (forall r p, In r rounds -> In p (rd_pos r) -> (1 <= snd (mask p))%Q) ->
  forall out, generate_randoms mask rounds n = Ok (Some out) -> forall x, In x out -> (r_z x < fst (mask (r_pos x)))%Q.
Proof.
  intros mask rounds n HR HF out Eo.
  destruct (loop_spec false mask (fun x => (r_z x < fst (mask (r_pos x)))%Q) rounds HR) with (n := n) (ctr := 0) (acc := @nil row) as (o & E & H).
  - intros r good x Hr Eg Hx. destruct (round_spec false mask r (HR r Hr)) as (good' & Eg' & P). assert (good' = good) by congruence. subst good'.
    destruct (P _ _ Hx) as (_ & _ & _ & _ & _ & P5). apply P5. intros q Hq. apply (HF r q Hr Hq).
  - reflexivity.
  - intros x [].
  - unfold generate_randoms in Eo. assert (Eo' : o = Some out) by congruence. apply (H out Eo').
Qed.
Print Assumptions C34_no_holes_partial.
(** With a partly good pixel in the mask, a point is accepted against the limit of another position. *)
Definition ex_mask : maskfn := fun p => if Z.eqb p 1 then (9#10, 1#2)%Q else (3#10, 1)%Q.
Definition ex_round : round := mkRound [1; 2]%Z [7#10; 1#10]%Q [mkDrawn (6#10) 20 5].
(** Finding: for cluster randoms a redshift can exceed the maximum at the point itself: after the holes are cut out, limits of other points are used. *)
Theorem C34_other_limit_refuted : exists mask rounds n out x, (forall r, In r rounds -> round_ok mask r) /\
  generate_randoms mask rounds n = Ok (Some out) /\ In x out /\ (fst (mask (r_pos x)) < r_z x)%Q.
Proof.
  exists ex_mask, [ex_round], 1. eexists. eexists. split; [|split; [vm_compute; reflexivity|split; [left; reflexivity|reflexivity]]].
  intros r [<-|[]]. split; [reflexivity|]. split; [reflexivity|]. intros u [<-|[<-|[]]]; cbn; lra.
Qed.
Print Assumptions C34_other_limit_refuted.
(** If no catalog redshift fits below any limit, no number of passes is enough: the call does not return. *)
Theorem C34_endless_refuted : forall mask rounds n, (forall r, In r rounds -> round_ok mask r) -> 0 < n ->
  (forall r d p, In r rounds -> In d (rd_draw r) -> (fst (mask p) <= d_z d)%Q) -> generate_randoms mask rounds n = Ok None.
Proof.
  intros mask rounds n HR Hn HZ. apply loop_never; [|exact Hn]. intros r Hr. destruct (round_spec false mask r (HR r Hr)) as ([|[p d] good] & E & P); [exact E|].
  exfalso. destruct (P p d (or_introl eq_refl)) as ([_ Hd] & _ & _ & (q & _ & Hq) & _). specialize (HZ r d q Hr Hd). lra.
Qed.
Print Assumptions C34_endless_refuted.
(** If every pass places at least one point, nrandoms passes suffice. *)
Theorem C34_progress : forall mask rounds n, (forall r, In r rounds -> exists x good, one_round false mask r = Ok (x :: good)) ->
  n <= List.length rounds -> exists out, generate_randoms mask rounds n = Ok (Some out).
Proof. intros mask rounds n H Hn. apply loop_progress; assumption. Qed.
Print Assumptions C34_progress.
Definition ex_round2 : round := mkRound [2; 1; 2]%Z [1#10; 1#10; 1#2]%Q [mkDrawn (2#10) 20 5; mkDrawn (5#10) 30 6; mkDrawn (2#10) 20 5].
Example C34_example : round_ok ex_mask ex_round2 /\
  redmagic_randoms ex_mask [ex_round; ex_round2] 2 = Ok (Some [(1, 2%Z, mkDrawn (2#10) 20 5); (2, 1%Z, mkDrawn (5#10) 30 6)]) /\
  generate_randoms ex_mask [ex_round2] 3 = Ok (Some [(1, 2%Z, mkDrawn (2#10) 20 5); (2, 1%Z, mkDrawn (5#10) 30 6); (3, 2%Z, mkDrawn (2#10) 20 5)]).
Proof.
  split; [|split; vm_compute; reflexivity]. split; [reflexivity|]. split; [reflexivity|]. intros u [<-|[<-|[<-|[]]]]; cbn; lra.
Qed.

(** Every kept point is a random of the redshift range that passes the richness and mask cuts and whose cluster passes
    the cluster cut; and if a cluster has a kept point, its kept weights add up to the number of its randoms in the
    redshift range. *)
Theorem C35_weights_partial : forall c cat rand out, NoDup (map k_id cat) -> weight_randoms c cat rand = Ok out ->
  (forall p w, In (p, w) out -> In p rand /\ in_zrange c p = true /\ point_cut c p = true /\ (0 < w)%Q /\
     exists k, In k cat /\ k_id k = p_id p /\ clus_cut c k = true) /\
  (forall i, let kept := filter (fun rw => Z.eqb (p_id (fst rw)) i) out in
     kept <> [] -> (Qsum (map snd kept) == inject_Z (Z.of_nat (List.length (of_cluster i (filter (in_zrange c) rand)))))%Q).
Proof.
  intros c cat rand out Hnd H. destruct (weight_out c cat rand out H) as (rows & Er & Eo). pose proof (all_use_spec c cat rand rows Er) as Hrows.
  split.
  - intros p w Hp. rewrite Eo in Hp. apply in_map_iff in Hp. destruct Hp as [p' [[= -> <-] Hp]]. apply filter_In in Hp. destruct Hp as [Hp Hc].
    assert (Hw := wt_pos c rows p Hp). rewrite Hc in Hw. apply Qlt_bool_iff in Hw.
    rewrite Hrows in Hp. apply filter_In in Hp. destruct Hp as [Hp Hs]. apply filter_In in Hp. destruct Hp as [Hp Hz].
    apply (sel_cut_spec c cat _ Hnd) in Hs. auto 10.
  - intros i kept Hne. destruct (group_sum c rows i out Eo) as [G1 G2]. fold kept in G1, G2. specialize (G2 Hne). rewrite G2. unfold nall. 
    assert (E : of_cluster i rows = of_cluster i (filter (in_zrange c) rand)); [|rewrite E; reflexivity].
    assert (Hs : Proofs.Randoms.sel_cut (map k_id cat) cat (clus_cut c) i = true).
    { destruct kept as [|[p w] kept'] eqn:Ek; [congruence|]. assert (Hin : In p (filter (point_cut c) (of_cluster i rows))) by (rewrite <- G1; left; reflexivity).
      apply filter_In in Hin. destruct Hin as [Hin _]. apply filter_In in Hin. destruct Hin as [Hin Hid]. apply Z.eqb_eq in Hid.
      rewrite Hrows in Hin. apply filter_In in Hin. destruct Hin as [_ Hin]. rewrite Hid in Hin. exact Hin. }
    rewrite Hrows. unfold of_cluster. generalize (filter (in_zrange c) rand) as l. induction l as [|a l IH]; [reflexivity|]. cbn [filter].
    destruct (Z.eqb (p_id a) i) eqn:Ea.
    + apply Z.eqb_eq in Ea. rewrite Ea, Hs. cbn [filter]. rewrite Ea, Z.eqb_refl, IH. reflexivity.
    + destruct (Proofs.Randoms.sel_cut (map k_id cat) cat (clus_cut c) (p_id a)); [cbn [filter]; rewrite Ea|]; exact IH.
Qed.
Print Assumptions C35_weights_partial.
(** Every passing point of a passing cluster is kept. *)
Theorem C35_complete : forall c cat rand out p, NoDup (map k_id cat) -> weight_randoms c cat rand = Ok out ->
  In p rand -> in_zrange c p = true -> point_cut c p = true -> (exists k, In k cat /\ k_id k = p_id p /\ clus_cut c k = true) ->
  exists w, In (p, w) out.
Proof.
  intros c cat rand out p Hnd H Hp Hz Hc Hk. destruct (weight_out c cat rand out H) as (rows & Er & Eo). pose proof (all_use_spec c cat rand rows Er) as Hrows.
  apply (sel_cut_spec c cat _ Hnd) in Hk. eexists. rewrite Eo. apply in_map_iff. exists p. split; [reflexivity|]. apply filter_In. split; [|exact Hc].
  rewrite Hrows. apply filter_In. split; [|exact Hk]. apply filter_In. auto.
Qed.
Print Assumptions C35_complete.
(** A passing cluster all of whose randoms fail the cuts is lost: its randoms are counted nowhere. *)
Definition ex_wconf : wconf := mkWconf true 20 0 1000 (1#5) (1#10) (9#10).
Definition ex_wcat : list rclus := [mkRclus 4 30 1; mkRclus 7 50 1].
Definition ex_wrand : list rpoint :=
  [mkRpoint 7 (3#10) 50 1 0; mkRpoint 4 (3#10) 30 2 0; mkRpoint 7 (3#10) 50 1 (1#2); mkRpoint 7 (3#10) 50 1 (1#10); mkRpoint 4 (2#10) 30 1 (3#10)].
(** Finding: a cluster whose randoms all fail the cuts loses them altogether: its weights do not add up to their number. *)
Theorem C35_lost_refuted : exists c cat rand out k, weight_randoms c cat rand = Ok out /\ In k cat /\ clus_cut c k = true /\
  of_cluster (k_id k) (filter (in_zrange c) rand) <> [] /\ ~ (Qsum (map snd (filter (fun rw => Z.eqb (p_id (fst rw)) (k_id k)) out)) ==
     inject_Z (Z.of_nat (List.length (of_cluster (k_id k) (filter (in_zrange c) rand)))))%Q.
Proof.
  exists ex_wconf, ex_wcat, ex_wrand. eexists. exists (mkRclus 4 30 1). split; [vm_compute; reflexivity|].
  split; [left; reflexivity|]. split; [reflexivity|]. split; vm_compute; discriminate.
Qed.
Print Assumptions C35_lost_refuted.
(** The area correction counts with another cut than the weights: a kept point whose richness is at the upper edge of
    the bin is not counted as good. *)
Theorem C35_area_edge_refuted : forall c p, (0 < p_scale p)%Q -> point_cut c p = true -> (p_lambda p == w_hi c)%Q -> area_cut c p = false.
Proof.
  intros c p _ _ H. unfold area_cut. rewrite (proj2 (Qlt_bool_false (p_lambda p) (w_hi c))) by lra. apply Bool.andb_false_r.
Qed.
Print Assumptions C35_area_edge_refuted.
Example C35_example : exists w1 w2, weight_randoms ex_wconf ex_wcat ex_wrand = Ok [(mkRpoint 7 (3#10) 50 1 0, w1); (mkRpoint 7 (3#10) 50 1 (1#10), w2)] /\
  (w1 == 3#2)%Q /\ (w2 == 3#2)%Q /\ NoDup (map k_id ex_wcat).
Proof.
  do 2 eexists. split; [vm_compute; reflexivity|]. split; [reflexivity|]. split; [reflexivity|]. repeat constructor; cbn; intuition discriminate.
Qed.
(** A random point in the redshift range that belongs to no cluster of the catalog stops the weighting with a RuntimeError, as do a range
    without random points and a cut without clusters. *)
Theorem C35_errors : forall c cat rand, NoDup (map k_id cat) -> cat <> [] ->
  let inside p := (w_z0 c < p_z p /\ p_z p < w_z1 c)%Q in
  (exists p, In p rand /\ inside p /\ ~ In (p_id p) (map k_id cat)) \/
  (forall p, In p rand -> ~ inside p) \/
  (forall p k, In p rand -> inside p -> In k cat -> k_id k = p_id p -> clus_cut c k = false) ->
  weight_randoms c cat rand = Err RuntimeError.
Proof.
  intros c cat rand HN HC inside H. unfold weight_randoms, all_use. cbv zeta. set (zuse := filter _ rand).
  assert (Z : forall p, In p zuse <-> In p rand /\ inside p).
  { intros p. unfold zuse, inside. rewrite filter_In, Bool.andb_true_iff, !Qlt_bool_iff. reflexivity. }
  destruct (Nat.eqb_spec (List.length zuse) 0) as [L|L]; [reflexivity|].
  assert (HK : map k_id cat <> []) by (destruct cat; [congruence|discriminate]).
  assert (HZ : zuse <> []) by (intros E; rewrite E in L; apply L; reflexivity).
  assert (HZ' : map p_id zuse <> []) by (destruct zuse; [congruence|discriminate]).
  assert (HU : uniqueZ (map p_id zuse) <> []).
  { destruct zuse as [|p z]; [congruence|]. intros E. assert (X : In (p_id p) (uniqueZ (map p_id (p :: z)))) by (apply uniqueZ_In; left; reflexivity). rewrite E in X. destruct X. }
  destruct (Proofs.Galfile.eu_match_ok _ _ HK HU HN) as (m & Em). rewrite Em. cbn [bind].
  destruct (Nat.ltb_spec (List.length (snd m)) (List.length (uniqueZ (map p_id zuse)))) as [Hl|Hl]; [reflexivity|].
  assert (ALL : forall p, In p zuse -> In (p_id p) (map k_id cat)).
  { rewrite <- (map_id (uniqueZ (map p_id zuse))) in Em. destruct (Proofs.Galfile.eu_match_filter _ _ (fun x => x) _ Em) as [F B].
    intros p Hp. assert (X : In (p_id p) (uniqueZ (map p_id zuse))) by (apply uniqueZ_In, in_map, Hp).
    assert (LF : List.length (filter (fun x => Galfile.is_in x (map k_id cat)) (uniqueZ (map p_id zuse))) = List.length (snd m)).
    { rewrite <- F. apply np_sel_length, B. }
    rewrite <- (filter_full (fun x => Galfile.is_in x (map k_id cat)) (uniqueZ (map p_id zuse)) ltac:(lia)) in X. apply filter_In in X as [_ X]. apply Proofs.Galfile.is_in_iff, X. }
  destruct H as [(p & Hp & Hi & Hn)|[H|H]].
  - exfalso. apply Hn, ALL, Z. auto.
  - exfalso. destruct zuse as [|p z]; [congruence|]. destruct (proj1 (Z p) (or_introl eq_refl)) as [A B]. apply (H p A B).
  - destruct (Proofs.Galfile.eu_match_ok _ _ HK HZ' HN) as (ab & Eab). rewrite Eab. cbn [bind].
    assert (M : ab = match_from (map k_id cat) 0 (map p_id zuse)).
    { unfold eu_match in Eab. destruct (_ || _); [discriminate|]. destruct (nodupZ (map k_id cat)); [|discriminate]. injection Eab as <-. reflexivity. }
    assert (B : forall i, In i (fst ab) -> i < List.length cat).
    { intros i Hi. rewrite M in Hi. apply match_fst in Hi as (y & _ & Hy). rewrite <- (map_length k_id). apply nth_error_Some. congruence. }
    rewrite (np_take_ok _ _ B). cbn [bind]. rewrite where_no; [reflexivity|].
    intros k Hk. apply np_sel_In in Hk as (i & Hi & Ek). rewrite M in Hi. apply match_fst in Hi as (y & Hy & Ey). rewrite nth_error_map, Ek in Ey. cbn in Ey. injection Ey as Ey.
    apply in_map_iff in Hy as (p & Ep & Hp). apply Z in Hp as [Hp Hi]. apply (H p k Hp Hi (nth_error_In _ _ Ek)). congruence.
Qed.
Print Assumptions C35_errors.
(** The cuts spelled out: richness above the smallest (divided by the scale value where the selection is on the scaled
    richness), within the bin (its lower end excluded, its upper end included); for points also the masked fraction. *)
Theorem C35_cuts c k p :
  (clus_cut c k = true <-> (if w_scaleval c then (w_minlambda c < k_lambda k / k_scale k)%Q else (w_minlambda c < k_lambda k)%Q) /\ (w_lo c < k_lambda k <= w_hi c)%Q) /\
  (point_cut c p = true <-> (if w_scaleval c then (w_minlambda c < p_lambda p / p_scale p)%Q else (w_minlambda c < p_lambda p)%Q) /\ (w_lo c < p_lambda p <= w_hi c)%Q /\ (p_maskfrac p < w_maxmask c)%Q).
Proof. unfold clus_cut, point_cut. rewrite !Bool.andb_true_iff, !Qlt_bool_iff, !Qle_bool_iff. destruct (w_scaleval c); tauto. Qed.
Print Assumptions C35_cuts.
