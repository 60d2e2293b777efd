(** Property C165 (redmagic_calibrate.py: areas and volumes). *)
From Coq Require Import QArith Qround Sorted.
From Verif.Base Require Import Py PyLemmas.
From Verif.Model Require Import Galfile Util RedCal RedArea.
From Verif.Spec Require Import RedArea.
From Verif.Proofs Require Import Util RedCal Ingest RedArea.
From Verif.Props Require Import Util RedCal.
From Coq Require Import Lqa Lia List. Import ListNotations.
Local Open Scope Q_scope.

(** C165.  The area of a redshift is that of the first redshift of the table that is not below it; beyond the table the calibration stops. *)
Theorem C165_area : forall zs areas z, StronglySorted Qle zs -> List.length areas = List.length zs ->
  ((exists y, In y zs /\ z <= y) -> exists k y a, nth_error zs k = Some y /\ nth_error areas k = Some a /\ z <= y /\
      (forall j x, (j < k)%nat -> nth_error zs j = Some x -> x < z) /\ area_at zs areas z = Ok a) /\
  ((forall y, In y zs -> y < z) -> area_at zs areas z = Err IndexError).
Proof. intros zs areas z S L. split; [apply area_found; assumption|apply area_lost; assumption]. Qed.
Print Assumptions C165_area.

(** C165.  With areas that fall with redshift the area used is never above the area at the redshift, and not below that one step of the
    table further. *)
Theorem C165_conservative : forall f z0 z1 fine z, 0 < fine -> (forall a b, a <= b -> f b <= f a) -> z0 <= z -> z <= z1 - fine ->
  exists a, area_at (area_zs z0 z1 fine) (map f (area_zs z0 z1 fine)) z = Ok a /\ f (z + fine) <= a /\ a <= f z.
Proof.
  intros f z0 z1 fine z F D A B.
  destruct (area_found (area_zs z0 z1 fine) (map f (area_zs z0 z1 fine)) z) as (k & y & a & Hy & Ha & L & J & E).
  - apply grid_sorted, F.
  - apply map_length.
  - destruct (grid_top z0 z1 fine F) as (y & I & T); [lra|]. exists y. split; [exact I|lra].
  - exists a. split; [exact E|]. rewrite nth_error_map, Hy in Ha. cbn in Ha. injection Ha as <-. split; [|apply D, L].
    apply D. destruct k as [|k].
    + unfold area_zs in Hy. rewrite arange_eq in Hy. destruct (Z.to_nat _) as [|n]; [discriminate|]. cbn in Hy. injection Hy as <-. unfold step_at. change (inject_Z (Z.of_nat 0)) with 0. lra.
    + destruct (nth_error (area_zs z0 z1 fine) k) as [x|] eqn:Ex; [|apply nth_error_None in Ex; assert (S k < List.length (area_zs z0 z1 fine))%nat by (apply nth_error_Some; congruence); lia].
      pose proof (J k x (Nat.lt_succ_diag_r k) Ex). pose proof (grid_step z0 z1 fine k x y Ex Hy). lra.
Qed.
Print Assumptions C165_conservative.

(** C165.  With the same area everywhere the volumes of the bins add up to the volume of the whole range. *)
Theorem C165_total : forall V bs zs area lo n, additive V -> proper V -> StronglySorted Qle zs -> (forall z, In z (centres lo bs n) -> exists y, In y zs /\ z <= y) ->
  exists vs, volumes V bs zs (repeat area (List.length zs)) (centres lo bs n) = Ok vs /\ List.length vs = n /\
    Qsum vs == V lo (lo + inject_Z (Z.of_nat n) * bs) * (area / sky).
Proof.
  intros V bs zs area lo n HA HP S H. unfold volumes.
  assert (LC : List.length (centres lo bs n) = n) by (unfold centres; rewrite map_length; apply seq_length).
  rewrite (mapM_const _ _ area).
  - cbn [bind]. eexists. split; [reflexivity|]. split; [rewrite map_length, combine_length, repeat_length, LC; lia|]. rewrite LC. apply centres_total; assumption.
  - intros z Hz. destruct (area_found zs (repeat area (List.length zs)) z S (repeat_length _ _) (H z Hz)) as (k & y & a & _ & Ha & _ & _ & ->). apply nth_error_In, repeat_spec in Ha. congruence.
Qed.
Print Assumptions C165_total.

(** C165.  Each bin gets its own volume: the area found for its middle times the volume of the sky within the bin. *)
Theorem C165_each : forall V bs zs areas at_ vs, volumes V bs zs areas at_ = Ok vs ->
  List.length vs = List.length at_ /\ forall i z v, nth_error at_ i = Some z -> nth_error vs i = Some v ->
    exists a, area_at zs areas z = Ok a /\ v = V (z - bs / 2) (z + bs / 2) * (a / (41252961 # 1000)).
Proof.
  intros V bs zs areas at_ vs H. unfold volumes in H. destruct (mapM _ at_) as [found|] eqn:E; [|discriminate]. cbn [bind] in H. injection H as <-. apply mapM_ok in E.
  split; [rewrite map_length, combine_length, (Forall2_len _ _ _ E); lia|]. intros i z v Hz Hv. rewrite nth_error_map in Hv. destruct (nth_error (combine at_ found) i) as [[z' a]|] eqn:Ec; [|discriminate]. cbn in Hv. injection Hv as <-.
  exists a. revert i Hz Ec. induction E as [|x y l1 l2 P E IH]; intros [|i] Hz Ec; cbn in *; try discriminate; [|exact (IH i Hz Ec)]. injection Hz as <-. injection Ec as <- <-. split; [exact P|reflexivity].
Qed.
Print Assumptions C165_each.

(** C165.  The volumes of all bins and nodes are found if the range of the calibration ends one bin and one step of the table below the end
    of the configured redshifts. *)
Theorem C165_inside_partial : forall V bs z0 z1 fine r0 zmax buffer size areas n, 0 < fine -> 0 < bs -> 0 < size -> z0 < z1 -> 0 <= r0 + buffer -> r0 + buffer < zmax - buffer ->
  List.length areas = List.length (area_zs z0 z1 fine) -> zmax - buffer + bs <= z1 - fine ->
  let range := cost_range r0 zmax buffer bs in fst range + inject_Z (Z.of_nat n) * bs <= snd range ->
  (exists vs, volumes V bs (area_zs z0 z1 fine) areas (centres (fst range) bs n) = Ok vs /\ List.length vs = n) /\
  (exists nodes vs, make_nodes (fst range) (snd range) size None = Ok nodes /\ volumes V bs (area_zs z0 z1 fine) areas nodes = Ok vs /\ List.length vs = List.length nodes).
Proof.
  intros V bs z0 z1 fine r0 zmax buffer size areas n F B N Z P R L T range Hn.
  destruct (C102_range r0 zmax buffer bs B R) as (m & Hm & E1 & E2 & E3 & E4). fold range in E1, E2, E3, E4.
  assert (OK : forall l, (forall z, In z l -> z <= z1 - fine) -> exists vs, volumes V bs (area_zs z0 z1 fine) areas l = Ok vs /\ List.length vs = List.length l).
  { intros l H. destruct (mapM_found (area_at (area_zs z0 z1 fine) areas) l) as (found & Ef).
    - intros z Hz. destruct (grid_top z0 z1 fine F Z) as (y & I & Ty). destruct (area_found (area_zs z0 z1 fine) areas z (grid_sorted _ _ _ F) L) as (k & y' & a & _ & _ & _ & _ & Ea); [exists y; split; [exact I|specialize (H z Hz); lra]|eauto].
    - unfold volumes. rewrite Ef. cbn [bind]. eexists. split; [reflexivity|]. apply mapM_ok in Ef. rewrite map_length, combine_length, (Forall2_len _ _ _ Ef). lia. }
  split.
  - destruct (OK (centres (fst range) bs n)) as (vs & E & Lv).
    + intros z Hz. unfold centres in Hz. apply in_map_iff in Hz. destruct Hz as (i & <- & Hi). apply in_seq in Hi.
      assert (I : inject_Z (Z.of_nat i) + 1 <= inject_Z (Z.of_nat n)) by (change 1 with (inject_Z 1); rewrite <- inject_Z_plus, <- Zle_Qle; lia).
      assert (J : (inject_Z (Z.of_nat i) + 1) * bs <= inject_Z (Z.of_nat n) * bs) by (apply Qmult_le_compat_r; lra). assert (bs / 2 == bs * (1#2)) by field. lra.
    + exists vs. split; [exact E|]. rewrite Lv. unfold centres. rewrite map_length. apply seq_length.
  - assert (Hr : fst range < snd range) by lra.
    destruct (C43_nodes (fst range) (snd range) size None N) as (nodes & En & Sn & Ln & _); [lra|cbn [node_end]; exact Hr|].
    exists nodes. destruct (OK nodes) as (vs & E & Lv).
    + intros z Hz. cbn [node_end] in Ln. assert (Q : Qlt_bool (snd range) (snd range) = false) by (apply Qlt_bool_false; lra). rewrite Q in Ln.
      assert (z <= last nodes 0). { clear -Sn Hz. induction Sn as [|x l S IH F]; [destruct Hz|]. destruct l as [|y l]; [destruct Hz as [->|[]]; apply Qle_refl|]. destruct Hz as [->|Hz]; [|exact (IH Hz)].
        assert (I : In (last (y :: l) 0) (y :: l)) by (clear; revert y; induction l as [|w l IH]; intros y; [left; reflexivity|right; apply IH]). rewrite Forall_forall in F. specialize (F _ I). change (last (z :: y :: l) 0) with (last (y :: l) 0). lra. }
      rewrite Ln in H. lra.
    + exists vs. auto.
Qed.
Print Assumptions C165_inside_partial.

(** Finding: when the range of the calibration reaches the end of the configured redshifts, the table of areas, which ends below it, has
    no entry for the last node and the calibration stops with IndexError. *)
Theorem C165_end_refuted : forall V bs z0 z1 fine r0 zmax buffer size areas, 0 < fine -> 0 < bs -> 0 < size -> 0 <= r0 + buffer -> r0 + buffer < zmax - buffer ->
  List.length areas = List.length (area_zs z0 z1 fine) -> z1 <= zmax - buffer ->
  let range := cost_range r0 zmax buffer bs in
  exists nodes, make_nodes (fst range) (snd range) size None = Ok nodes /\ volumes V bs (area_zs z0 z1 fine) areas nodes = Err IndexError.
Proof.
  intros V bs z0 z1 fine r0 zmax buffer size areas F B N P R L T range.
  destruct (C102_range r0 zmax buffer bs B R) as (m & Hm & E1 & E2 & E3 & E4). fold range in E1, E2, E3, E4. assert (Hr : fst range < snd range) by lra.
  destruct (C43_nodes (fst range) (snd range) size None N) as (nodes & En & _ & _ & In_ & _); [lra|cbn [node_end]; exact Hr|].
  exists nodes. split; [exact En|]. unfold volumes. rewrite (mapM_lost _ nodes (snd range)); [reflexivity|intros y e; apply area_only|exact In_|].
  apply area_lost; [apply grid_sorted, F|exact L|]. intros y Hy. pose proof (grid_below z0 z1 fine y F Hy). lra.
Qed.
Print Assumptions C165_end_refuted.

(** Finding: for the first and the last node the galaxies are counted in a bin beside the node but compared with the volume of the bin
    about it: where volume grows with redshift, the first is too small and the last too large. *)
Theorem C165_ends_refuted : forall V bs n node, additive V -> (1 < n)%nat ->
  let used := V (node - bs / 2) (node + bs / 2) in let counted j := V (fst (count_range bs j n node)) (snd (count_range bs j n node)) in
  (V (node - bs / 2) node < V (node + bs / 2) (node + bs) -> used < counted 0%nat) /\
  (V (node - bs) (node - bs / 2) < V node (node + bs / 2) -> counted (n - 1)%nat < used) /\
  (forall j, (0 < j)%nat -> (j < n - 1)%nat -> counted j = used).
Proof.
  intros V bs n node HA Hn used counted. unfold used, counted, count_range. split; [|split].
  - intros H. cbn [Nat.eqb fst snd]. pose proof (HA (node - bs / 2) node (node + bs / 2)). pose proof (HA node (node + bs / 2) (node + bs)). lra.
  - intros H. assert (E : Nat.eqb (n - 1) 0 = false) by (apply Nat.eqb_neq; lia). rewrite E, Nat.eqb_refl. cbn [fst snd]. pose proof (HA (node - bs / 2) node (node + bs / 2)). pose proof (HA (node - bs) (node - bs / 2) node). lra.
  - intros j A B. assert (E : Nat.eqb j 0 = false) by (apply Nat.eqb_neq; lia). assert (E' : Nat.eqb j (n - 1) = false) by (apply Nat.eqb_neq; lia). rewrite E, E'. reflexivity.
Qed.
Print Assumptions C165_ends_refuted.

(** a volume that grows like the square of the redshift *)
Definition ex_V (a b : Q) : Q := b * b - a * a.
Example C165_ex : additive ex_V /\ proper ex_V /\ area_at [1#10; 2#10; 3#10] [30; 20; 10] (15#100) = Ok 20 /\ area_at [1#10; 2#10; 3#10] [30; 20; 10] (35#100) = Err IndexError /\
  ex_V ((2#10) - (1#10) / 2) (2#10) < ex_V ((2#10) + (1#10) / 2) ((2#10) + (1#10)).
Proof.
  split; [intros a b c; unfold ex_V; ring|]. split; [intros a b c d H1 H2; unfold ex_V; rewrite H1, H2; reflexivity|]. vm_compute. repeat split; reflexivity.
Qed.
