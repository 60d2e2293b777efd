(** C42-C44: numerical helpers. *)
From Coq Require Import QArith Qround Qabs Lqa Sorting.Sorted.
From Verif.Base Require Import Py PyLemmas.
From Verif.Model Require Import Util.
From Verif.Spec Require Import Util.
From Verif.Proofs Require Import ZCorr Util.
Local Open Scope nat_scope.

(** C42: between two neighbouring nodes the result lies on the segment joining them (so it is exact at both nodes). *)
Theorem C42_between : forall v x xo j a b va vb, StronglySorted Qlt x -> List.length v = List.length x ->
  nth_error x j = Some a -> nth_error x (S j) = Some b -> nth_error v j = Some va -> nth_error v (S j) = Some vb -> (a <= xo <= b)%Q ->
  exists y, interpol v x xo = Ok y /\ on_line a va b vb xo y /\ (Qmin2 va vb <= y <= Qmax2 va vb)%Q.
Proof.
  intros v x xo j a b va vb Hs Hl Ha Hb Hva Hvb [H1 H2].
  destruct (interpol_on v x xo j a b va vb Hs Hl Ha Hb Hva Hvb (or_intror H1) (or_intror H2)) as (y & He & Ho).
  exists y. split; [exact He|]. split; [exact Ho|]. apply (on_line_between a b va vb xo y); try assumption. refine (SS_nth _ _ _ _ _ _ Hs _ Ha Hb). lia.
Qed.
Print Assumptions C42_between.
Theorem C42_node : forall v x j a va, StronglySorted Qlt x -> List.length v = List.length x -> 2 <= List.length x ->
  nth_error x j = Some a -> nth_error v j = Some va -> exists y, interpol v x a = Ok y /\ (y == va)%Q.
Proof.
  intros v x j a va Hs Hl Hm Ha Hva. assert (Hj : j < List.length x) by (apply nth_error_Some; congruence).
  destruct (Nat.eq_dec (S j) (List.length x)) as [E|N].
  - destruct j as [|j]; [lia|]. destruct (nth_some x j) as [b Hb]; [lia|]. destruct (nth_some v j) as [vb Hvb]; [lia|].
    assert (b < a)%Q by (refine (SS_nth _ _ _ _ _ _ Hs _ Hb Ha); lia).
    destruct (interpol_on v x a j b a vb va Hs Hl Hb Ha Hvb Hva) as (y & He & Ho); [right; lra|right; lra|]. exists y. split; [exact He|].
    exact (on_line_at_right b a vb va a y H (Qeq_refl a) Ho).
  - destruct (nth_some x (S j)) as [b Hb]; [lia|]. destruct (nth_some v (S j)) as [vb Hvb]; [lia|].
    assert (a < b)%Q by (refine (SS_nth _ _ _ _ _ _ Hs _ Ha Hb); lia).
    destruct (interpol_on v x a j a b va vb Hs Hl Ha Hb Hva Hvb) as (y & He & Ho); [right; lra|right; lra|]. exists y. split; [exact He|].
    exact (on_line_at_left a b va vb a y H (Qeq_refl a) Ho).
Qed.
Print Assumptions C42_node.
(** Outside: the line through the first two, or the last two, nodes is continued. *)
Theorem C42_outside : forall v x xo a b va vb, StronglySorted Qlt x -> List.length v = List.length x ->
  (nth_error x 0 = Some a -> nth_error x 1 = Some b -> nth_error v 0 = Some va -> nth_error v 1 = Some vb -> (xo <= a)%Q ->
     exists y, interpol v x xo = Ok y /\ on_line a va b vb xo y) /\
  (forall j, S (S j) = List.length x -> nth_error x j = Some a -> nth_error x (S j) = Some b -> nth_error v j = Some va -> nth_error v (S j) = Some vb -> (b <= xo)%Q ->
     exists y, interpol v x xo = Ok y /\ on_line a va b vb xo y).
Proof.
  intros v x xo a b va vb Hs Hl. split.
  - intros Ha Hb Hva Hvb H. apply (interpol_on v x xo 0); try assumption; [left; reflexivity|right].
    assert (a < b)%Q by (refine (SS_nth _ _ _ _ _ _ Hs _ Ha Hb); lia). lra.
  - intros j Hj Ha Hb Hva Hvb H. apply (interpol_on v x xo j); try assumption; [right|left; exact Hj].
    assert (a < b)%Q by (refine (SS_nth _ _ _ _ _ _ Hs _ Ha Hb); lia). lra.
Qed.
Print Assumptions C42_outside.
Example C42_example : interpol [1; 3; 2]%Q [0; 1; 3]%Q (2#1)%Q = Ok ((2 - 1) * (2 - 3) / (3 - 1) + 3)%Q /\ on_line 1 3 3 2 2 (5#2) /\
  exists y, interpol [1; 3; 2]%Q [0; 1; 3]%Q (5#1)%Q = Ok y /\ (y == 1)%Q.
Proof. split; [reflexivity|]. split; [reflexivity|]. eexists. split; [reflexivity|reflexivity]. Qed.

(** C43: the nodes are strictly increasing, end at the end of the range, contain the requested last regular node, and
    neighbouring regular nodes are never nearer than half, nor farther than one and a half, node sizes (plus 0.01). *)
Theorem C43_nodes : forall z0 z1 s m, (0 < s)%Q -> (0 <= z1)%Q -> (z0 < node_end z1 m)%Q ->
  exists nodes, make_nodes z0 z1 s m = Ok nodes /\ StronglySorted Qlt nodes /\ last nodes 0%Q = (if Qlt_bool (node_end z1 m) z1 then z1 else node_end z1 m) /\
    In (node_end z1 m) nodes /\ (last nodes 0 == z1)%Q /\
    (forall i a b, nth_error nodes i = Some a -> nth_error nodes (S i) = Some b -> (b <= node_end z1 m)%Q ->
       (Qmin2 s (s * (1#2) + (1#100)) <= b - a)%Q /\ (b - a <= s * (3#2) + (1#100))%Q).
Proof.
  intros z0 z1 s m Hs Hz1 Hlt. destruct (make_nodes_shape z0 z1 s m Hs Hlt) as (k & He & Hg & _). cbv zeta in *. set (mx := node_end z1 m) in *.
  set (tail := if Qlt_bool mx z1 then [z1] else []) in *. eexists. split; [exact He|].
  assert (Hlast : last (map (step_at z0 s) (seq 0 k) ++ [mx] ++ tail) 0%Q = if Qlt_bool mx z1 then z1 else mx).
  { rewrite app_assoc. unfold tail. destruct (Qlt_bool mx z1); [apply last_last|]. rewrite app_nil_r. apply last_last. }
  assert (Hmin : (0 < Qmin2 s (s * (1#2) + (1#100)))%Q /\ (Qmin2 s (s * (1#2) + (1#100)) <= s)%Q) by (destruct (Qmin2_cases s (s * (1#2) + (1#100))) as [[? ->]|[? ->]]; lra).
  split; [apply shape_sorted; [exact Hs|]; intros j Hj; specialize (Hg j Hj); lra|].
  split; [exact Hlast|]. split; [apply in_or_app; right; left; reflexivity|]. split.
  { rewrite Hlast. destruct (Qlt_bool_cases mx z1) as [[Hc ->]|[Hc ->]]; [reflexivity|]. pose proof (node_end_le z1 m Hz1). fold mx in H. lra. }
  intros i a b Ha Hb Hle.
  assert (Hcase : S i < k \/ S i = k \/ k <= i) by lia. destruct Hcase as [Hc|[Hc|Hc]].
  - rewrite nth_error_app1 in Ha, Hb by (rewrite map_length, seq_length; lia).
    apply nth_seq_map in Ha. apply nth_seq_map in Hb. destruct Ha as [_ ->]. destruct Hb as [_ ->].
    rewrite step_S. lra.
  - rewrite nth_error_app1 in Ha by (rewrite map_length, seq_length; lia). rewrite nth_error_app2 in Hb by (rewrite map_length, seq_length; lia).
    apply nth_seq_map in Ha. destruct Ha as [_ ->].
    rewrite map_length, seq_length, <- Hc, Nat.sub_diag in Hb. cbn in Hb. injection Hb as <-. specialize (Hg i Hc). lra.
  - rewrite nth_error_app2 in Hb by (rewrite map_length, seq_length; lia). rewrite map_length, seq_length in Hb.
    replace (S i - k) with (S (i - k)) in Hb by lia. cbn in Hb. unfold tail in Hb. destruct (Qlt_bool_cases mx z1) as [[Hq E]|[Hq E]]; rewrite E in Hb.
    + destruct (i - k) as [|d]; cbn in Hb; [|destruct d; discriminate]. injection Hb as <-. lra.
    + destruct (i - k); discriminate.
Qed.
Print Assumptions C43_nodes.
(** The first node is the start of the range exactly when the regular part is longer than half a node size plus 0.01 (or
    than a whole one). *)
Theorem C43_start_partial : forall z0 z1 s m, (0 < s)%Q -> (z0 < node_end z1 m)%Q ->
  (s < node_end z1 m - z0)%Q \/ (s * (1#2) + (1#100) < node_end z1 m - z0)%Q ->
  exists nodes, make_nodes z0 z1 s m = Ok nodes /\ (hd 0 nodes == z0)%Q.
Proof.
  intros z0 z1 s m Hs Hlt H. destruct (make_nodes_shape z0 z1 s m Hs Hlt) as (k & He & Hg & Hk). cbv zeta in *.
  eexists. split; [exact He|]. destruct k as [|k].
  - destruct Hk as [Hk _]. destruct (Hk eq_refl). lra.
  - cbn. unfold step_at. change (inject_Z (Z.of_nat 0)) with 0%Q. ring.
Qed.
Print Assumptions C43_start_partial.
(** Otherwise the start of the range is lost: there is no node there and everything below the only regular node is extrapolated. *)
Theorem C43_start_refuted : forall z0 z1 s m, (0 < s)%Q -> (z0 < node_end z1 m)%Q -> (node_end z1 m - z0 <= s)%Q -> (node_end z1 m - z0 <= s * (1#2) + (1#100))%Q ->
  make_nodes z0 z1 s m = Ok (node_end z1 m :: (if Qlt_bool (node_end z1 m) z1 then [z1] else [])).
Proof.
  intros z0 z1 s m Hs Hlt H1 H2. destruct (make_nodes_shape z0 z1 s m Hs Hlt) as (k & He & Hg & Hk). cbv zeta in *.
  rewrite (proj2 Hk (conj H1 H2)) in He. exact He.
Qed.
Print Assumptions C43_start_refuted.
(** A requested end not above the start of the range raises ValueError (the maximum of an empty array). *)
Theorem C43_empty_refuted : forall z0 z1 s m, (0 < s)%Q -> (node_end z1 m <= z0)%Q -> make_nodes z0 z1 s m = Err ValueError.
Proof. intros z0 z1 s m Hs H. unfold make_nodes. cbv zeta. rewrite arange_empty by assumption. reflexivity. Qed.
Print Assumptions C43_empty_refuted.
Example C43_example : exists l, make_nodes (1#10) (33#100) (1#10) None = Ok l /\ map Qred l = [1#10; 1#5; 33#100]%Q.
Proof. eexists. split; [vm_compute; reflexivity|vm_compute; reflexivity]. Qed.
Example C43_maxnode_example : exists l, make_nodes (1#10)%Q (90#100)%Q (1#10)%Q (Some (38#100)%Q) = Ok l /\ map Qred l = [1#10; 1#5; 3#10; 19#50; 9#10]%Q.
Proof. eexists. split; [vm_compute; reflexivity|vm_compute; reflexivity]. Qed.
Example C43_start_example : make_nodes (1#10) (12#100) (5#100) None = Ok [12#100]%Q.
Proof. vm_compute. reflexivity. Qed.

(** C44: every sample inside the grid is spread over the cells that the unit box centred on it covers, in proportion to the
    overlap; nothing is written outside the grid.  Any number of axes. *)
Theorem C44_cells : forall iso ns ss, (forall s, In s ss -> inside ns (sa_pos s)) ->
  exists f, cic iso false ns ss = Ok f /\ List.length f = grid_size ns /\
    forall ks, cell_of ns ks -> (nth (Z.to_nat (flat ns ks)) f 0 == Qsum (map (fun s => sa_val s * weight iso ns (sa_pos s) ks) ss))%Q.
Proof.
  intros iso ns ss H. destruct (cic_field iso ns sa_val ss H) as (f & E & Hl & Hv). exists f.
  split; [unfold cic; rewrite E; reflexivity|]. split; [exact Hl|]. intros ks Hk. pose proof (flat_range ns ks Hk). rewrite Hv by lia.
  apply Qsum_map_ext. intros s Hs. rewrite Z2Nat.id by lia. rewrite hits_corners by (auto). reflexivity.
Qed.
Print Assumptions C44_cells.
(** the positions of the cells are exactly the positions of the array, each once *)
Theorem C44_flat : forall ns, Forall (fun n => 0 < n)%Z ns ->
  (forall ks, cell_of ns ks -> (0 <= flat ns ks < Z.of_nat (grid_size ns))%Z) /\
  (forall ks ks', cell_of ns ks -> cell_of ns ks' -> flat ns ks = flat ns ks' -> ks = ks') /\
  (forall i, (0 <= i < Z.of_nat (grid_size ns))%Z -> exists ks, cell_of ns ks /\ flat ns ks = i).
Proof. intros ns H. split; [|split]. - intros ks Hk. apply flat_range, Hk. - apply flat_inj. - apply flat_surj, H. Qed.
Print Assumptions C44_flat.
(** With wraparound the total is conserved; so it is for samples at least half a cell from the edges. *)
Theorem C44_total_partial : forall iso ns ss, (forall s, In s ss -> inside ns (sa_pos s)) ->
  iso = false \/ (forall s, In s ss -> well_inside ns (sa_pos s)) ->
  exists f, cic iso false ns ss = Ok f /\ (Qsum f == Qsum (map sa_val ss))%Q.
Proof.
  intros iso ns ss H Hi. destruct (cic_field iso ns sa_val ss H) as (f & E & _ & _). exists f.
  split; [unfold cic; rewrite E; reflexivity|]. rewrite (cic_sum iso ns sa_val ss f H E). apply Qsum_map_ext. intros s Hs.
  rewrite corners_one; [ring|apply H, Hs|]. destruct Hi as [Hi|Hi]; [left; exact Hi|right; apply Hi, Hs].
Qed.
Print Assumptions C44_total_partial.
(** Without wraparound (the default, and what every caller uses) a sample keeps at most its value, and loses the part of
    its box outside the grid. *)
Theorem C44_isolated_le : forall iso ns ss, (forall s, In s ss -> inside ns (sa_pos s) /\ (0 <= sa_val s)%Q) ->
  exists f, cic iso false ns ss = Ok f /\ (Qsum f <= Qsum (map sa_val ss))%Q /\ (forall x, In x f -> (0 <= x)%Q).
Proof.
  intros iso ns ss H. assert (Hi : forall s, In s ss -> inside ns (sa_pos s)) by (intros s Hs; apply H, Hs).
  destruct (cic_field iso ns sa_val ss Hi) as (f & E & Hl & Hv). exists f.
  split; [unfold cic; rewrite E; reflexivity|]. split.
  - rewrite (cic_sum iso ns sa_val ss f Hi E). apply Qsum_map_le. intros s Hs. destruct (H s Hs) as [H1 H2].
    pose proof (corners_sum_le iso ns _ H1). assert (0 <= sa_val s * (1 - Qsum (map snd (corners iso ns (sa_pos s)))))%Q by (apply Qmult_le_0_compat; lra). lra.
  - intros x Hx. apply In_nth with (d := 0%Q) in Hx. destruct Hx as (i & Hi2 & <-). rewrite Hv by lia. apply Qsum_nonneg. intros y Hy.
    apply in_map_iff in Hy. destruct Hy as (s & <- & Hs). destruct (H s Hs). apply Qmult_le_0_compat; [assumption|]. apply hits_nonneg. assumption.
Qed.
Print Assumptions C44_isolated_le.
(** Finding: without wraparound a sample within half a cell of the lower edge loses part of its weight. *)
Theorem C44_edge_refuted : forall n p v, (0 < v)%Q -> (0 <= p)%Q -> (p < 1#2)%Q -> (1 <= n)%Z ->
  exists f, cic true false [n] [mkSa [p] v] = Ok f /\ (Qsum f == v * (p + (1#2)))%Q /\ (Qsum f < v)%Q.
Proof.
  intros n p v Hv H0 H1 Hn. assert (Hin : inside [n] [p]).
  { repeat constructor; [exact H0|]. assert (inject_Z 1 <= inject_Z n)%Q by (rewrite <- Zle_Qle; exact Hn). change (inject_Z 1) with 1%Q in H. lra. }
  assert (Hs : forall s, In s [mkSa [p] v] -> inside [n] (sa_pos s)) by (intros s [<-|[]]; exact Hin).
  destruct (cic_field true [n] sa_val _ Hs) as (f & E & _ & _). exists f. split; [unfold cic; rewrite E; reflexivity|].
  assert (Hq : (Qsum f == v * (p + (1#2)))%Q).
  { rewrite (cic_sum true [n] sa_val _ f Hs E). cbn [map Qsum sa_val sa_pos]. rewrite edge_axis by assumption. ring. }
  split; [exact Hq|]. rewrite Hq. assert (0 < v * ((1#2) - p))%Q by (apply Qmult_lt_0_compat; lra). lra.
Qed.
Print Assumptions C44_edge_refuted.
(** Averages: a cell reached by samples gets a weighted mean of their values; a cell no sample reaches is zero. *)
Theorem C44_average : forall iso ns ss lo hi, (forall s, In s ss -> inside ns (sa_pos s) /\ (lo <= sa_val s <= hi)%Q) ->
  exists f, cic iso true ns ss = Ok f /\ List.length f = grid_size ns /\
    forall i x, nth_error f i = Some x -> (x == 0)%Q \/ (lo <= x <= hi)%Q.
Proof.
  intros iso ns ss lo hi H. assert (Hi : forall s, In s ss -> inside ns (sa_pos s)) by (intros s Hs; apply H, Hs).
  destruct (cic_field iso ns sa_val ss Hi) as (f & E & Hl & Hv). destruct (cic_field iso ns (fun _ => 1%Q) ss Hi) as (t & Et & Hlt & Hvt).
  eexists. split; [unfold cic; rewrite E; cbn [bind]; rewrite Et; reflexivity|].
  split; [rewrite map_length, combine_length; lia|]. intros i x Hx. rewrite nth_error_map in Hx.
  destruct (nth_error (combine f t) i) as [[a b]|] eqn:Ec; [|discriminate]. cbn in Hx. injection Hx as <-.
  destruct (combine_nth2 f t i a b Ec) as (Ha & Hb & Hb').
  assert (Hil : i < grid_size ns) by lia. specialize (Hv i Hil). specialize (Hvt i Hil). rewrite Ha in Hv. rewrite Hb in Hvt.
  assert (Hw : forall s, In s ss -> (0 <= hits (Z.of_nat i) (corners iso ns (sa_pos s)))%Q) by (intros; apply hits_nonneg, Hi; assumption).
  destruct (wmean_bounds ss sa_val (fun s => hits (Z.of_nat i) (corners iso ns (sa_pos s))) lo hi) as [B1 B2]; [exact Hw|intros s Hs; apply H, Hs|].
  assert (Hbs : (b == Qsum (map (fun s => hits (Z.of_nat i) (corners iso ns (sa_pos s))) ss))%Q) by (rewrite Hvt; apply Qsum_map_ext; intros; ring).
  assert (Hb0 : (0 <= b)%Q) by (rewrite Hbs; apply Qsum_nonneg; intros y Hy; apply in_map_iff in Hy; destruct Hy as (s & <- & Hs); apply Hw, Hs).
  rewrite <- Hbs, <- Hv in B1, B2.
  destruct (Qeq_bool b 0) eqn:Eb.
  - apply Qeq_bool_iff in Eb. left. assert (a <= hi * b)%Q by exact B2. rewrite Eb in *. lra.
  - right. assert (Hbn : ~ (b == 0)%Q) by (intros Hc; apply Qeq_bool_iff in Hc; congruence). assert (0 < b)%Q by lra.
    split; [apply Qle_shift_div_l|apply Qle_shift_div_r]; assumption.
Qed.
Print Assumptions C44_average.
Example C44_example : exists f, cic true false [3; 2]%Z [mkSa [5#4; 1]%Q 8%Q] = Ok f /\ map Qred f = [1; 3; 0; 1; 3; 0]%Q.
Proof. eexists. split; [vm_compute; reflexivity|vm_compute; reflexivity]. Qed.
Example C44_example_inside : inside [3; 2]%Z [5#4; 1]%Q /\ well_inside [3; 2]%Z [5#4; 1]%Q.
Proof. split; repeat constructor; vm_compute; congruence. Qed.

(** A sample beyond the last cell of a one-dimensional grid stops the assignment. *)
Theorem C44_outside : forall iso avg n pos v ss, (0 < n)%Z -> (inject_Z n <= pos)%Q -> cic iso avg [n] (mkSa [pos] v :: ss) = Err IndexError.
Proof.
  intros iso avg n pos v ss Hn Hp. unfold cic, contribs. change (2 ^ List.length [n]) with 2. cbn [seq flat_map map app add_at].
  assert (X : exists w, nth 0 (corners iso [n] [pos]) (0%Z, 0%Q) = ((Qtrunc pos + n * 0)%Z, w)).
  { unfold corners, axis. cbn [flat_map map fst snd app].
    destruct (Qlt_bool (inject_Z (Qtrunc pos) + (1 # 2) - pos) 0); repeat (match goal with |- context [if ?b then _ else _] => destruct b end); eexists; reflexivity. }
  destruct X as (w & X). cbn [sa_pos]. rewrite X. cbn [fst snd].
  assert (T : (n <= Qtrunc pos)%Z). { unfold Qtrunc. apply Z.quot_le_lower_bound; [reflexivity|]. unfold Qle, inject_Z in Hp. cbn in Hp. lia. }
  unfold add_at1. cbn [fst]. rewrite repeat_length. unfold grid_size. cbn [fold_right]. rewrite Z2Nat.id by lia.
  destruct (Z.ltb_spec (Qtrunc pos + n * 0) 0); [lia|]. destruct (Z.leb_spec (n * 1) (Qtrunc pos + n * 0)); [|lia]. rewrite orb_true_r. reflexivity.
Qed.
Print Assumptions C44_outside.
Example C44_outside_ex : cic true false [4%Z] [mkSa [(9#2)%Q] 1%Q] = Err IndexError.
Proof. apply C44_outside; [lia|]. cbn. discriminate. Qed.
