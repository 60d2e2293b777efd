(** C58 and C78: the training galaxies and the first member run. *)
From Coq Require Import QArith Sorting.Sorted Permutation.
From Verif.Base Require Import Py PyLemmas Sort Fn.
From Verif.Model Require Import Runner Colormem.
From Verif.Model Require Galfile.
From Verif.Spec Require Import Runner Colormem.
From Verif.Proofs Require Import Runner Colormem.
From Verif.Proofs Require Galfile Percolate.
From Coq Require Import Lqa Lia List.
Import ListNotations.
Local Open Scope nat_scope.
Local Open Scope list_scope.

(** *** C58 *)
(** Boundaries in order: a galaxy that is on no boundary is tested with the mode of its interval, and only with it. *)
Theorem C58_selected_partial red zr lim inner modes gals : StronglySorted Qle inner -> length modes = S (length inner) ->
  exists out, select red zr lim inner modes gals = Ok out /\ forall g, ~ on_boundary inner (g_z g) ->
  (In g out <-> In g gals /\ (fst zr < g_z g < snd zr)%Q /\ (g_refmag g < lim)%Q /\ red (nth (interval inner (g_z g)) modes 0%Z) g = true).
Proof.
  intros Hs L. eexists. split; [apply select_eq, L|]. intros g N. rewrite filter_In, andb_true_iff. unfold in_range.
  rewrite !andb_true_iff, !Qlt_bool_iff, existsb_exists.
  assert (K : (fst zr < g_z g < snd zr)%Q -> ((exists m, In m (seq 0 (length modes)) /\ hit red (zbounds zr inner) modes m g = true) <-> red (nth (interval inner (g_z g)) modes 0%Z) g = true)).
  { intros [Hlo Hhi]. assert (Hlo' : (fst zr - (11 # 1000) < g_z g)%Q) by Lqa.lra. assert (Hhi' : (g_z g < snd zr + (11 # 1000))%Q) by Lqa.lra.
    assert (G : forall m, m <= length inner -> (hit red (zbounds zr inner) modes m g = true <-> m = interval inner (g_z g) /\ red (nth m modes 0%Z) g = true)).
    { intros m Hm. unfold hit. pose proof (bounds_length zr inner) as BL.
      destruct (nth_error (zbounds zr inner) m) as [a|] eqn:A; [|apply nth_error_None in A; lia].
      destruct (nth_error (zbounds zr inner) (S m)) as [b|] eqn:B; [|apply nth_error_None in B; lia].
      destruct (nth_error modes m) as [j|] eqn:J; [|apply nth_error_None in J; lia]. rewrite (nth_error_nth _ _ 0%Z J).
      rewrite !andb_true_iff, !Qlt_bool_iff. rewrite (strict_interval zr inner (g_z g) Hs Hlo' Hhi' m a b Hm A B). tauto. }
    pose proof (interval_le inner (g_z g)) as IL. split.
    - intros (m & Hm & H). apply in_seq in Hm. apply G in H; [|lia]. destruct H as [-> H]. exact H.
    - intros H. exists (interval inner (g_z g)). split; [apply in_seq; lia|]. apply G; [exact IL|]. auto. }
  split.
  - intros (H1 & (H2 & H3) & H4). split; [exact H1|]. split; [exact H2|]. split; [exact H3|]. apply K; auto.
  - intros (H1 & H2 & H3 & H4). split; [exact H1|]. split; [split; [exact H2|exact H3]|]. apply K; auto.
Qed.
Print Assumptions C58_selected_partial.

(** A galaxy on a boundary is never selected, whatever its color. *)
Theorem C58_boundary_refuted red zr lim inner modes gals g : StronglySorted Qle inner -> length modes = S (length inner) -> on_boundary inner (g_z g) ->
  exists out, select red zr lim inner modes gals = Ok out /\ ~ In g out.
Proof.
  intros Hs L N. eexists. split; [apply select_eq, L|]. rewrite filter_In, andb_true_iff, existsb_exists. unfold in_range. rewrite !andb_true_iff, !Qlt_bool_iff.
  intros (_ & ((Hlo & Hhi) & _) & m & Hm & H). apply in_seq in Hm. unfold hit in H. pose proof (bounds_length zr inner) as BL.
  destruct (nth_error (zbounds zr inner) m) as [a|] eqn:A; [|discriminate]. destruct (nth_error (zbounds zr inner) (S m)) as [b|] eqn:B; [|discriminate].
  destruct (nth_error modes m) as [j|]; [|discriminate]. rewrite !andb_true_iff, !Qlt_bool_iff in H. destruct H as [[H1 H2] _].
  assert (Hm' : m <= length inner) by lia.
  assert (Hlo' : (fst zr - (11 # 1000) < g_z g)%Q) by Lqa.lra. assert (Hhi' : (g_z g < snd zr + (11 # 1000))%Q) by Lqa.lra.
  pose proof (proj1 (strict_interval zr inner (g_z g) Hs Hlo' Hhi' m a b Hm' A B) (conj H1 H2)) as [_ K]. exact (K N).
Qed.
Print Assumptions C58_boundary_refuted.
(** Boundaries out of order: one galaxy is tested with two modes and selected when it passes either. *)
Theorem C58_unordered_refuted : exists zr inner modes, length modes = S (length inner) /\ forall red : Z -> gal -> bool, forall lim g, 
  (g_z g == 1 # 2)%Q -> (g_refmag g < lim)%Q -> exists out, select red zr lim inner modes [g] = Ok out /\ (In g out <-> red 1%Z g = true \/ red 3%Z g = true).
Proof.
  exists (1 # 10, 9 # 10)%Q, [6 # 10; 3 # 10]%Q, [1; 2; 3]%Z. split; [reflexivity|]. intros red lim g Hz Hm. eexists. split; [apply select_eq; reflexivity|].
  rewrite filter_In, andb_true_iff. unfold in_range. rewrite !andb_true_iff, !Qlt_bool_iff. cbn [fst snd length seq existsb hit zbounds app nth_error].
  assert (T : forall x, (x < 1 # 2)%Q -> Qlt_bool x (g_z g) = true) by (intros x Hx; apply Qlt_bool_iff; Lqa.lra).
  assert (F : forall x, (1 # 2 < x)%Q -> Qlt_bool x (g_z g) = false) by (intros x Hx; apply Qlt_bool_false; Lqa.lra).
  assert (T' : forall x, (1 # 2 < x)%Q -> Qlt_bool (g_z g) x = true) by (intros x Hx; apply Qlt_bool_iff; Lqa.lra).
  rewrite (T (_ - _)%Q), (F (6 # 10)%Q), (T (3 # 10)%Q), (T' (6 # 10)%Q), (T' (_ + _)%Q) by reflexivity. cbn [andb orb].
  rewrite orb_false_r, orb_true_iff. split; [tauto|]. intros H. split; [left; reflexivity|]. split; [|exact H]. repeat split; auto; Lqa.lra.
Qed.
Print Assumptions C58_unordered_refuted.

(** The member run: every cluster in the redshift range has exactly the mode of its interval. *)
Theorem C58_mode zr inner modes z : StronglySorted Qle inner -> length modes = S (length inner) -> (fst zr < z < snd zr)%Q ->
  mode_of zr inner modes z = Ok (nth (interval inner z) modes 0%Z).
Proof.
  intros Hs L [Hlo Hhi]. assert (Hlo' : (fst zr - (11 # 1000) < z)%Q) by Lqa.lra. assert (Hhi' : (z < snd zr + (11 # 1000))%Q) by Lqa.lra.
  unfold mode_of. pose proof (interval_le inner z) as IL. pose proof (bounds_length zr inner) as BL.
  destruct (find_interval (zbounds zr inner) z 0) as [m|] eqn:F.
  - destruct (found_some _ _ _ _ F) as (i & a & b & -> & A & B & P & R). cbn [plus].
    assert (Hi : i <= length inner) by (assert (S i < length (zbounds zr inner)) by (apply nth_error_Some; congruence); lia).
    pose proof (proj1 (bound_low zr inner z Hs Hlo' i a A Hi) P). pose proof (proj1 (bound_high zr inner z Hs Hhi' i b B Hi) R).
    replace i with (interval inner z) by lia. destruct (nth_error modes (interval inner z)) as [j|] eqn:J; [|apply nth_error_None in J; lia].
    rewrite (nth_error_nth _ _ 0%Z J). reflexivity.
  - exfalso. set (i := interval inner z) in *.
    destruct (nth_error (zbounds zr inner) i) as [a|] eqn:A; [|apply nth_error_None in A; lia].
    destruct (nth_error (zbounds zr inner) (S i)) as [b|] eqn:B; [|apply nth_error_None in B; lia].
    apply (found_none _ _ _ F i a b A B). split; [apply (bound_low zr inner z Hs Hlo' i a A IL); fold i; lia|apply (bound_high zr inner z Hs Hhi' i b B IL); fold i; lia].
Qed.
Print Assumptions C58_mode.
(** ... and it is the mode the galaxy was selected with, although the two ranges differ. *)
Theorem C58_same_mode red zr cushion lim inner modes gals out g : StronglySorted Qle inner -> length modes = S (length inner) ->
  select red (cushioned zr cushion) lim inner modes gals = Ok out -> In g out -> (fst zr < g_z g < snd zr)%Q ->
  exists j, mode_of zr inner modes (g_z g) = Ok j /\ red j g = true.
Proof.
  intros Hs L H Hg R. exists (nth (interval inner (g_z g)) modes 0%Z). split; [apply C58_mode; auto|].
  destruct (C58_selected_partial red (cushioned zr cushion) lim inner modes gals Hs L) as (o & Ho & P).
  rewrite H in Ho. injection Ho as <-. apply P; [|exact Hg]. intros N.
  destruct (C58_boundary_refuted red (cushioned zr cushion) lim inner modes gals g Hs L N) as (o & Ho & K). rewrite H in Ho. injection Ho as <-. exact (K Hg).
Qed.
Print Assumptions C58_same_mode.
Example C58_example : let g k z := mk_gal k z (20 # 1) in
  select (fun j _ => Z.eqb j 2) (1 # 10, 9 # 10)%Q (21 # 1) [4 # 10]%Q [1; 2]%Z [g 1%Z (3 # 10)%Q; g 2%Z (4 # 10)%Q; g 3%Z (5 # 10)%Q; g 4%Z (91 # 100)%Q]
    = Ok [g 3%Z (5 # 10)%Q] /\
  mode_of (1 # 10, 9 # 10)%Q [4 # 10]%Q [1; 2]%Z (4 # 10) = Ok 1%Z /\ mode_of (1 # 10, 9 # 10)%Q [4 # 10]%Q [1; 2]%Z (92 # 100) = Err RuntimeError.
Proof. repeat split. Qed.

(** *** C78 *)
(** First pass: every cluster is measured alone. *)
Theorem C78_first mc p1 cs : map (fun r => (cr_id r, cr_lambda r)) (rs_cat (first_pass mc p1 cs)) = map (fun c => (cl_id c, alone p1 c)) cs.
Proof. rewrite first_rows, map_map. reflexivity. Qed.
Print Assumptions C78_first.
(** Second pass: the same clusters, from the richest to the poorest. *)
Theorem C78_order asort mc p1 cs : argsort_spec asort -> exists cs2, between asort cs (first_pass mc p1 cs) = Ok cs2 /\ Permutation cs2 cs /\
  forall i j c d, i < j -> nth_error cs2 i = Some c -> nth_error cs2 j = Some d -> (alone p1 d <= alone p1 c)%Q.
Proof.
  intros A. unfold between. rewrite first_rows, map_map. cbn [cr_lambda]. set (key := map (fun c => alone p1 c) cs).
  assert (LK : length key = length cs) by (unfold key; apply map_length).
  destruct (np_take_total cs (desc asort key)) as (cs2 & E).
  { intros i Hi. apply desc_In in Hi; [|exact A]. lia. }
  exists cs2. split; [exact E|]. split; [apply (Percolate.take_perm _ _ _ E); rewrite <- LK; apply desc_perm, A|].
  intros i j c d Hij Hc Hd. destruct (np_take_nth_inv _ _ _ _ _ E Hc) as (a & Ha & Hca). destruct (np_take_nth_inv _ _ _ _ _ E Hd) as (b & Hb & Hdb).
  apply (desc_sorted asort key i j a b (alone p1 c) (alone p1 d) A Hij Ha Hb); unfold key; rewrite nth_error_map; [rewrite Hca|rewrite Hdb]; reflexivity.
Qed.
Print Assumptions C78_order.
(** Each is handed what the richer ones have left. *)
Theorem C78_second mc p2 cs2 k c : respects_Qeq p2 -> Forall (fun c => NoDup (cl_nb c)) cs2 -> nth_error cs2 k = Some c ->
  Forall2 Qeq (handed (mkFL true true mc) (rs_pgal (second_pass mc p2 (firstn k cs2))) c) (map (fun g => (1 - taken (history p2 [] (firstn k cs2)) g)%Q) (cl_nb c)).
Proof.
  intros R N K. apply handed_taken; [reflexivity|]. intros g. apply perc_exact; auto. apply Forall_forall. intros x Hx. rewrite Forall_forall in N. apply N.
  rewrite <- (firstn_skipn k cs2). apply in_or_app. left. exact Hx.
Qed.
Print Assumptions C78_second.
(** What is written: the clusters that pass the cuts, and of the members saved for exactly those clusters the ones with
    a large color probability. *)
Theorem C78_output asort mc p1 p2 keep pcol pcut cs cat mem : argsort_spec asort -> NoDup (map cl_id cs) ->
  colormem asort mc p1 p2 keep pcol pcut cs = Ok (cat, mem) -> exists cs2, between asort cs (first_pass mc p1 cs) = Ok cs2 /\
  (forall r, In r cat <-> exists k c, nth_error cs2 k = Some c /\ r = row (mkFL true true mc) p2 cs2 k c /\ keep r = true) /\
  (forall m, In m mem <-> (pcut < pcol m)%Q /\ exists k c, nth_error cs2 k = Some c /\ keep (row (mkFL true true mc) p2 cs2 k c) = true /\ In m (saved (mkFL true true mc) p2 cs2 k c)).
Proof.
  intros A N H. unfold colormem in H. destruct (C78_order asort mc p1 cs A) as (cs2 & E & P & _). rewrite E in H. cbn [bind] in H.
  exists cs2. split; [exact E|]. destruct (post keep (second_pass mc p2 cs2)) as [[ca ms]|] eqn:Ep; [|discriminate]. cbn [bind fst snd] in H. injection H as <- <-.
  destruct (post_eq _ _ _ _ Ep) as (Hcat & l & Hl & Hms). unfold second_pass in *. set (f := mkFL true true mc) in *.
  assert (N2 : NoDup (map cl_id cs2)) by (apply (Permutation_NoDup (Permutation_map cl_id (Permutation_sym P)) N)).
  assert (RC : forall r, In r (rs_cat (run_loop f p2 cs2)) <-> exists k c, nth_error cs2 k = Some c /\ r = row f p2 cs2 k c).
  { intros r. split.
    - intros Hin. apply In_nth_error in Hin. destruct Hin as [k Hk]. destruct (nth_error cs2 k) as [c|] eqn:Ec.
      + exists k, c. split; [exact Ec|]. pose proof (run_cat f p2 cs2 k c Ec). congruence.
      + apply nth_error_None in Ec. assert (k < length (rs_cat (run_loop f p2 cs2))) by (apply nth_error_Some; congruence). rewrite run_cat_length in H. lia.
    - intros (k & c & Hk & ->). apply (nth_error_In _ k), run_cat, Hk. }
  split.
  - intros r. rewrite Hcat, filter_In, RC. split.
    + intros ((k & c & Hk & Hr) & K). exists k, c. auto.
    + intros (k & c & Hk & Hr & K). split; [eauto|exact K].
  - intros m. unfold training. rewrite filter_In, Qlt_bool_iff, Hms, filter_In, Verif.Proofs.Galfile.is_in_iff.
    pose proof (run_mem f p2 cs2) as RM. rewrite Hl in RM. cbn [olist] in RM. rewrite RM, in_concat.
    assert (Q1 : forall k c, nth_error cs2 k = Some c -> cr_id (row f p2 cs2 k c) = cl_id c) by (intros; apply step_id).
    assert (IC : forall k c, In (k, c) (combine (seq 0 (length cs2)) cs2) <-> nth_error cs2 k = Some c).
    { intros k c. split.
      - intros Hkc. apply In_nth_error in Hkc. destruct Hkc as [j Hj].
        assert (G : forall (l : list cl) s j, nth_error (combine (seq s (length l)) l) j = Some (k, c) -> k = s + j /\ nth_error l j = Some c).
        { clear. induction l as [|x l IH]; intros s j H; [destruct j; discriminate|]. destruct j as [|j]; cbn in H; [injection H as <- <-; split; [lia|reflexivity]|].
          apply IH in H. destruct H as [-> H]. split; [lia|exact H]. }
        apply G in Hj. destruct Hj as [-> Hj]. exact Hj.
      - intros Hk. assert (G : forall (l : list cl) s j, nth_error l j = Some c -> In (s + j, c) (combine (seq s (length l)) l)).
        { clear. induction l as [|x l IH]; intros s j H; [destruct j; discriminate|]. destruct j as [|j]; cbn in *; [injection H as <-; left; f_equal; lia|].
          right. replace (s + S j) with (S s + j) by lia. apply IH, H. }
        apply (G cs2 0 k Hk). }
    split.
    + intros [((x & Hx & Hm) & Hin) Hc]. split; [exact Hc|]. apply in_map_iff in Hx. destruct Hx as ([k c] & <- & Hkc). cbn [fst snd] in Hm. apply IC in Hkc.
      exists k, c. split; [exact Hkc|]. split; [|exact Hm]. rewrite (saved_id _ _ _ _ _ _ Hm) in Hin. apply in_map_iff in Hin. destruct Hin as (r & Hr & Hin).
      rewrite Hcat in Hin. apply filter_In in Hin. destruct Hin as [Hin K]. apply RC in Hin. destruct Hin as (j & d & Hj & ->). rewrite (Q1 j d Hj) in Hr.
      assert (j = k). { apply (proj1 (NoDup_nth_error (map cl_id cs2)) N2); [rewrite map_length; apply nth_error_Some; congruence|rewrite !nth_error_map, Hj, Hkc; cbn; congruence]. }
      subst j. assert (d = c) by congruence. subst d. exact K.
    + intros [Hc (k & c & Hk & K & Hm)]. split; [|exact Hc]. split.
      * exists (saved f p2 cs2 k c). split; [|exact Hm]. apply in_map_iff. exists (k, c). split; [reflexivity|]. apply IC, Hk.
      * rewrite (saved_id _ _ _ _ _ _ Hm), <- (Q1 k c Hk). apply in_map. rewrite Hcat. apply filter_In. split; [|exact K]. apply RC. eauto.
Qed.
Print Assumptions C78_output.
(** When no cluster can be measured in the second pass there is no member table and the run ends with AttributeError. *)
Theorem C78_nothing_refuted asort mc p1 p2 keep pcol pcut cs : argsort_spec asort -> (forall c pf, oc_bad (p2 c pf) = true) ->
  colormem asort mc p1 p2 keep pcol pcut cs = Err AttributeError.
Proof.
  intros A B. unfold colormem. destruct (C78_order asort mc p1 cs A) as (cs2 & E & _). rewrite E. cbn [bind].
  assert (M : rs_mem (second_pass mc p2 cs2) = None).
  { unfold second_pass. clear - B. induction cs2 as [|c cs2 IH] using rev_ind; [reflexivity|]. rewrite run_loop_snoc. unfold run_step, step.
    destruct (cl_nb c); [cbn [rs_mem]; rewrite IH; reflexivity|]. rewrite B. cbn [rs_mem]. rewrite IH. reflexivity. }
  unfold post. rewrite M. reflexivity.
Qed.
Print Assumptions C78_nothing_refuted.
(** The cuts of the catalog. *)
Theorem C78_cuts minlambda maxfrac cols r : kept minlambda maxfrac cols r = true <->
  (0 < fst (cols (cr_id r)) /\ minlambda * fst (cols (cr_id r)) <= cr_lambda r /\ snd (cols (cr_id r)) < maxfrac)%Q.
Proof.
  unfold kept. rewrite !andb_true_iff, !Qlt_bool_iff, Qle_bool_iff. split.
  - intros [[H1 H2] H3]. split; [exact H2|]. split; [|exact H3]. apply (Qmult_le_r _ _ _ H2) in H1. rewrite Qmult_comm in H1.
    setoid_replace (cr_lambda r) with (cr_lambda r / fst (cols (cr_id r)) * fst (cols (cr_id r)))%Q; [rewrite Qmult_comm; exact H1|]. field. intros E. Lqa.lra.
  - intros (H1 & H2 & H3). split; [split; [|exact H1]|exact H3]. apply Qle_shift_div_l; [exact H1|exact H2].
Qed.
Print Assumptions C78_cuts.
Definition grab2 (c : cl) (pf : list Q) : outcome := mkOC false (Qsum pf * inject_Z (cl_id c)) (map (fun p => mkNO (p * (1 # 2)) p true true false) pf).
Example C78_example : exists cat mem, colormem argsort false grab2 grab2 (fun _ => true) mr_p (1 # 10) [mkCL 1 [0; 1]; mkCL 2 [1; 2; 3]] = Ok (cat, mem) /\
  map cr_id cat = [2; 1]%Z /\ map mr_gal mem = [1; 2; 3; 0; 1].
Proof. eexists. eexists. split; [vm_compute; reflexivity|]. split; reflexivity. Qed.
(** More modes than intervals between the boundaries: the selection stops with an error about an index. *)
Theorem C58_modes red zr lim inner modes gals : S (length inner) < length modes -> select red zr lim inner modes gals = Err IndexError.
Proof.
  intros L. unfold select. set (gs := filter _ gals). set (mark := map _ gs). clearbody mark. set (b := zbounds zr inner).
  assert (Lb : length b = S (S (length inner))) by (unfold b, zbounds; cbn; rewrite app_length; cbn; lia).
  assert (X : forall n s mk, s <= S (length inner) -> S (length inner) < s + n -> s + n <= length modes -> mark_modes red b modes gs mk (seq s n) = Err IndexError).
  { induction n as [|n IH]; intros s mk H1 H2 H3; [lia|]. cbn [seq mark_modes]. unfold mark_mode.
    destruct (nth_error b s) as [x|] eqn:E1; [|apply nth_error_None in E1; lia]. destruct (nth_error b (S s)) as [y|] eqn:E2; [|reflexivity].
    assert (S s < length b) by (apply nth_error_Some; congruence). destruct (nth_error modes s) as [j|] eqn:E3; [|reflexivity]. cbn [bind]. apply IH; lia. }
  rewrite X by lia. reflexivity.
Qed.
Print Assumptions C58_modes.
