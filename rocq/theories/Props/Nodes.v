(** C108, C109 and C111: bins between redshift nodes in the calibration. *)
From Coq Require Import QArith Qround Qabs Lqa Lia Sorted.
From Verif.Base Require Import Py PyLemmas.
From Verif.Model Require Import Util Maskgals Nodes.
From Verif.Proofs Require Import Maskgals Nodes.
From Coq Require Import Lqa Lia List. Import ListNotations.
Local Open Scope Q_scope.

(** * C108 *)
(** C108: the calibration of the cluster redshifts goes on exactly if between any two neighbouring nodes there is a cluster that
    is rich enough and not masked; the clusters used are these. *)
Theorem C108_populated : forall minlambda maxfrac nodes cat, (2 <= List.length nodes)%nat ->
  let good c := Qlt_bool minlambda (cc_lam c / cc_scale c) && Qlt_bool 0 (cc_scale c) && Qlt_bool (cc_maskfrac c) maxfrac in
  let populated := forall i a b, nth_error nodes i = Some a -> nth_error nodes (S i) = Some b ->
     exists c, In c cat /\ minlambda < cc_lam c / cc_scale c /\ 0 < cc_scale c /\ cc_maskfrac c < maxfrac /\
               a <= cc_z c /\ (cc_z c < b \/ S (S i) = List.length nodes /\ cc_z c <= b) in
  (populated -> select_calib minlambda maxfrac nodes cat = Ok (filter good cat)) /\
  (~ populated -> select_calib minlambda maxfrac nodes cat = Err RuntimeError).
Proof.
  intros minlambda maxfrac nodes cat Hn good populated. unfold select_calib. change (calib_use minlambda maxfrac) with good.
  pose proof (hist_nonempty nodes (map cc_z (filter good cat)) Hn) as NE. pose proof (hist_zero nodes (map cc_z (filter good cat))) as HZ.
  assert (EQ : (forall i a b, nth_error nodes i = Some a -> nth_error nodes (S i) = Some b ->
      exists x, In x (map cc_z (filter good cat)) /\ a <= x /\ (x < b \/ S (S i) = List.length nodes /\ x <= b)) <-> populated).
  { unfold populated. split; intros H i a b Ha Hb; destruct (H i a b Ha Hb) as (x & K).
    - destruct K as (Hx & K). apply in_map_iff in Hx. destruct Hx as (c & <- & Hc). apply filter_In in Hc. destruct Hc as [Hc G]. unfold good in G.
      rewrite !andb_true_iff, !Qlt_bool_iff in G. exists c. tauto.
    - exists (cc_z x). destruct K as (Hx & K1 & K2 & K3 & K). split; [|exact K]. apply in_map. apply filter_In. split; [exact Hx|]. unfold good. rewrite !andb_true_iff, !Qlt_bool_iff. auto. }
  rewrite EQ in HZ. clear EQ. destruct (np_histogram nodes (map cc_z (filter good cat))) as [|h t]; [congruence|].
  split; intros H; destruct (existsb (Nat.eqb 0) (h :: t)) eqn:E; try reflexivity; exfalso; [apply HZ in H; congruence|apply H, HZ; reflexivity].
Qed.
Print Assumptions C108_populated.
(** Finding: if the redshift range has a single node (narrower than about half the node size) the calibration stops with a
    ValueError instead. *)
Theorem C108_single_refuted : forall minlambda maxfrac z cat, select_calib minlambda maxfrac [z] cat = Err ValueError.
Proof. reflexivity. Qed.
Print Assumptions C108_single_refuted.
(** Finding: the check is made before the outliers are removed: it can pass although a bin has no cluster left for the fit. *)
Theorem C108_outliers_refuted : exists nodes cat use, select_calib 20 (2#10) nodes cat = Ok use /\
  exists a b, nth_error nodes 1 = Some a /\ nth_error nodes 2 = Some b /\ forall c, In c (filter not_outlier use) -> ~ (a <= cc_z c /\ cc_z c <= b).
Proof.
  exists [1#10; 2#10; 3#10], [mkCC 30 1 0 (15#100) (15#100) (1#100); mkCC 30 1 0 (25#100) (45#100) (1#100)]. eexists. split; [reflexivity|].
  exists (2#10), (3#10). repeat split. intros c H. vm_compute in H. destruct H as [<-|[]]. cbn. lra.
Qed.
Print Assumptions C108_outliers_refuted.
Example C108_example : exists use, select_calib 20 (2#10) [1#10; 2#10; 3#10] [mkCC 30 1 0 (15#100) (15#100) (1#100); mkCC 30 1 0 (3#10) (3#10) (1#100)] = Ok use /\ List.length use = 2%nat /\
  select_calib 20 (2#10) [1#10; 2#10; 3#10] [mkCC 30 1 0 (15#100) (15#100) (1#100)] = Err RuntimeError.
Proof. eexists. split; [reflexivity|]. split; reflexivity. Qed.

(** * C109 *)
(** C109: the starting value of a node is the median over the galaxies nearest to it if there are enough, and the median of their
    deviations; otherwise the ones of the node before. *)
Theorem C109_values : forall mincomp nodes gals i, (i < List.length nodes)%nat ->
  let near := map snd (filter (fun zv => Qlt_bool (match i with O => nth 0 nodes 0 | S j => (nth j nodes 0 + nth i nodes 0) / 2 end) (fst zv) &&
    Qlt_bool (fst zv) (if Nat.eqb i (List.length nodes - 1) then nth i nodes 0 else (nth i nodes 0 + nth (S i) nodes 0) / 2)) gals) in
  List.length (startvals mincomp nodes gals) = List.length nodes /\
  nth_error (startvals mincomp nodes gals) i =
    Some (if Nat.ltb (List.length near) mincomp then match i with O => (0, 0) | S j => nth j (startvals mincomp nodes gals) (0, 0) end
          else (medianQ near, medianQ (map (fun v => Qabs (v - medianQ near)) near))).
Proof.
  intros mincomp nodes gals i Hi near. split; [unfold startvals; rewrite startvals_len; apply seq_length|].
  unfold startvals. rewrite startvals_nth by exact Hi. cbn [Nat.add]. unfold node_val.
  assert (E : map snd (filter (fun zv => in_node nodes i (fst zv)) gals) = near) by (unfold near, in_node, node_lo, node_hi, half; destruct i; reflexivity).
  rewrite E. reflexivity.
Qed.
Print Assumptions C109_values.
(** every galaxy is near at most one node, *)
Theorem C109_disjoint : forall nodes i j z, StronglySorted Qlt nodes -> (i < List.length nodes)%nat -> (j < List.length nodes)%nat ->
  in_node nodes i z = true -> in_node nodes j z = true -> i = j.
Proof.
  intros nodes i j z Hs Hi Hj A B. unfold in_node in *. rewrite andb_true_iff, !Qlt_bool_iff in A, B.
  destruct (Nat.lt_trichotomy i j) as [L|[E|L]]; [exfalso|exact E|exfalso].
  - pose proof (node_hi_lo nodes i j Hs L Hj). lra.
  - pose proof (node_hi_lo nodes j i Hs L Hi). lra.
Qed.
Print Assumptions C109_disjoint.
(** and, between the first and the last node, to exactly one unless it is half-way between two. *)
Theorem C109_nearest : forall nodes z, StronglySorted Qlt nodes -> (2 <= List.length nodes)%nat -> nth 0 nodes 0 < z -> z < nth (List.length nodes - 1) nodes 0 ->
  (forall i, (S i < List.length nodes)%nat -> ~ z == (nth i nodes 0 + nth (S i) nodes 0) / 2) ->
  exists i, (i < List.length nodes)%nat /\ in_node nodes i z = true.
Proof.
  intros nodes z Hs Hn H0 H1 Hm. destruct (largest (fun i => Qlt_bool (node_lo nodes i) z) (List.length nodes - 1)) as (i & Hi & Pi & K); [apply Qlt_bool_iff; exact H0|].
  exists i. split; [lia|]. unfold in_node. rewrite Pi. cbn [andb]. apply Qlt_bool_iff. unfold node_hi. destruct (Nat.eqb i (List.length nodes - 1)) eqn:E.
  - apply Nat.eqb_eq in E. rewrite E. exact H1.
  - apply Nat.eqb_neq in E. destruct K as [K|K]; [contradiction|]. apply Qlt_bool_false in K. cbn [node_lo] in K.
    specialize (Hm i ltac:(lia)). unfold half in *. destruct (Qlt_le_dec z ((nth i nodes 0 + nth (S i) nodes 0) / 2)) as [L|L]; [exact L|]. exfalso. apply Hm. lra.
Qed.
Print Assumptions C109_nearest.
(** Finding: a first node with too few galaxies starts from zero, whatever the values at the other nodes are (for the pivot
    magnitudes and the colors the fit then starts far from them). *)
Theorem C109_first_refuted : forall mincomp nodes gals, nodes <> [] ->
  (List.length (filter (fun zv => in_node nodes 0 (fst zv)) gals) < mincomp)%nat -> nth_error (startvals mincomp nodes gals) 0 = Some (0, 0).
Proof.
  intros mincomp nodes gals Hne H. unfold startvals. rewrite startvals_nth by (destruct nodes; [congruence|cbn; lia]). cbn [Nat.add]. unfold node_val. rewrite map_length.
  rewrite (proj2 (Nat.ltb_lt _ _) H). reflexivity.
Qed.
Print Assumptions C109_first_refuted.
Example C109_example : map (fun p => Qred (fst p)) (startvals 2 [1#10; 2#10; 3#10] [(11#100, 17); (12#100, 18); (27#100, 19); (26#100, 21)]) = [35#2; 35#2; 20]%Q.
Proof. vm_compute. reflexivity. Qed.

(** * C111 *)
(** C111: after the correction of the redshifts the calibration goes on only if the last cluster's is not negative. *)
Theorem C111_last_partial : forall correct zls z, check_corrected correct (zls ++ [z]) =
  if Qlt_bool (correct z) 0 then Err RuntimeError else Ok (map correct (zls ++ [z])).
Proof. intros correct zls z. unfold check_corrected. rewrite !map_app. cbn [map]. rewrite rev_unit. reflexivity. Qed.
Print Assumptions C111_last_partial.
(** Finding: only the last cluster is checked (the loop's variable is used instead of the catalog): negative redshifts of all
    others pass. *)
Theorem C111_others_refuted : forall correct zls z, 0 <= correct z -> check_corrected correct (zls ++ [z]) = Ok (map correct (zls ++ [z])).
Proof. intros correct zls z H. rewrite C111_last_partial. apply Qlt_bool_false in H. rewrite H. reflexivity. Qed.
Print Assumptions C111_others_refuted.
(** Finding: without a cluster above the richness limit the variable is not defined, and the calibration stops with a NameError. *)
Theorem C111_none_refuted : forall correct, check_corrected correct [] = Err NameError.
Proof. reflexivity. Qed.
Print Assumptions C111_none_refuted.
Example C111_example : check_corrected (fun z => z - (2#10)) [1#10; 5#10] = Ok [(1#10) - (2#10); (5#10) - (2#10)] /\ check_corrected (fun z => z - (2#10)) [5#10; 1#10] = Err RuntimeError.
Proof. split; reflexivity. Qed.
