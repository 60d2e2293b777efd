(** C13, C14, C15: percolation, ids and outputs of a run. *)
From Coq Require Import Lqa QArith.
From Verif.Base Require Import Py PyLemmas Fn.
From Verif.Model Require Import Runner.
From Verif.Spec Require Import Runner.
From Verif.Model Require Galfile.
From Verif.Proofs Require Import Runner.
Local Open Scope nat_scope.

(** ** C13.  The probability of each galaxy used up is exactly the sum of the claims of the clusters processed so
    far, and each cluster is handed exactly one minus that sum: nothing is forgotten or counted twice, for every
    order and number of clusters. *)
Theorem C13_accounting : forall f proc cs, fl_perc f = true -> respects_Qeq proc ->
  Forall (fun c => NoDup (cl_nb c)) cs ->
  (forall g, (rs_pgal (run_loop f proc cs) g == taken (history proc [] cs) g)%Q) /\
  (forall k c, nth_error cs k = Some c ->
     Forall2 Qeq (handed f (rs_pgal (before f proc cs k)) c)
                 (map (fun g => (1 - taken (history proc [] (firstn k cs)) g)%Q) (cl_nb c))).
Proof.
  intros f proc cs Hf Hr Hnd. split; [exact (perc_exact f proc cs Hf Hr Hnd)|].
  intros k c _. apply handed_taken; [exact Hf|]. apply perc_exact; auto.
  rewrite <- (firstn_skipn k cs) in Hnd. apply Forall_app in Hnd. apply Hnd.
Qed.
Print Assumptions C13_accounting.

(** The probability used up never decreases and never becomes negative, so free probability is at most one. *)
Theorem C13_monotone : forall f proc cs ds g, Forall (fun c => NoDup (cl_nb c)) (cs ++ ds) ->
  (0 <= rs_pgal (run_loop f proc cs) g <= rs_pgal (run_loop f proc (cs ++ ds)) g)%Q.
Proof.
  intros f proc cs ds g H. apply Forall_app in H as [H1 H2]. split; [apply run_nonneg, H1|apply run_mono, H2].
Qed.
Print Assumptions C13_monotone.

(** It stays in [0,1] if no cluster claims more of a galaxy than the free probability it was handed. *)
Theorem C13_unit_interval_partial : forall f proc cs, fl_perc f = true -> Forall (fun c => NoDup (cl_nb c)) cs ->
  (forall c pf, Forall2 (fun x o => no_mask o = true -> (no_p o <= x)%Q) pf (oc_nbrs (proc c pf))) ->
  forall g, (0 <= rs_pgal (run_loop f proc cs) g <= 1)%Q.
Proof. intros f proc cs Hf Hnd Hg g. split; [apply run_nonneg, Hnd|exact (perc_guard f proc cs Hf Hnd Hg g)]. Qed.
Print Assumptions C13_unit_interval_partial.

(** It also stays in [0,1] for a galaxy that at most one cluster claims. *)
Theorem C13_single_claim_partial : forall f proc cs g, fl_perc f = true -> respects_Qeq proc ->
  Forall (fun c => NoDup (cl_nb c)) cs ->
  (forall i j a b, nth_error (history proc [] cs) i = Some a -> nth_error (history proc [] cs) j = Some b ->
     (0 < claim (fst a) (snd a) g)%Q -> (0 < claim (fst b) (snd b) g)%Q -> i = j) ->
  (forall a, In a (history proc [] cs) -> claim (fst a) (snd a) g <= 1)%Q ->
  (0 <= rs_pgal (run_loop f proc cs) g <= 1)%Q.
Proof.
  intros f proc cs g Hf Hr Hnd Hu Hb. split; [apply run_nonneg, Hnd|].
  rewrite (perc_exact f proc cs Hf Hr Hnd g). apply taken_single; assumption.
Qed.
Print Assumptions C13_single_claim_partial.

(** The bound fails in general: the loop adds the raw probability, not the part that was still free, so two
    clusters that both give a galaxy probability 9/10 use up 9/5 of it, and a third is handed -4/5. *)
Definition grab (c : cl) (pf : list Q) : outcome :=
  mkOC false 20 (map (fun _ => mkNO (9#10) (9#10) true true false) (cl_nb c)).
(** Finding: nothing holds a cluster to the free probability it was handed: two clusters with overlapping members claim 9/5 of a galaxy, and the third is handed -4/5. *)
Theorem C13_overcommitted_refuted :
  exists cs, Forall (fun c => NoDup (cl_nb c)) cs /\
    (rs_pgal (run_loop (mkFL true true false) grab cs) 0 == 9 # 5)%Q /\
    Forall2 Qeq (handed (mkFL true true false) (rs_pgal (run_loop (mkFL true true false) grab cs)) (mkCL 3 [0])) [(-4 # 5)%Q].
Proof.
  exists [mkCL 1 [0; 1]; mkCL 2 [0; 2]]. split; [|split].
  - repeat constructor; cbn; intuition lia.
  - vm_compute. reflexivity.
  - constructor; [vm_compute; reflexivity|constructor].
Qed.
Print Assumptions C13_overcommitted_refuted.

(** a [proc] that meets the guard of [C13_unit_interval_partial]: takes half of what is free *)
Definition take_half (c : cl) (pf : list Q) : outcome :=
  mkOC false 20 (map (fun x => mkNO (Qmin2 (1#2) x) (1#2) true true false) pf).
Example C13_guard_met : forall c pf,
  Forall2 (fun x o => no_mask o = true -> (no_p o <= x)%Q) pf (oc_nbrs (take_half c pf)).
Proof.
  intros c pf. cbn [take_half oc_nbrs]. induction pf as [|x pf IH]; cbn [map]; constructor; [|exact IH].
  intros _. cbn [no_p]. unfold Qmin2. destruct (Qle_bool (1#2) x) eqn:E; [apply Qle_bool_iff, E|lra].
Qed.
Example C13_guard_run :
  Qeq (rs_pgal (run_loop (mkFL true true false) take_half [mkCL 1 [0; 1]; mkCL 2 [0]; mkCL 3 [1; 0]]) 0) 1.
Proof. vm_compute. reflexivity. Qed.

(** ** C14.  If the id step succeeds all ids are distinct, one per cluster. *)
Theorem C14_ids_distinct : forall ids r, generate_ids ids = Ok r ->
  NoDup r /\ List.length r = List.length ids.
Proof. exact generate_ok. Qed.
Print Assumptions C14_ids_distinct.

(** It stops with RuntimeError exactly when ids repeat without being all the same. *)
Theorem C14_duplicates_stop : forall ids, generate_ids ids = Err RuntimeError <->
  (~ NoDup ids /\ exists a b, In a ids /\ In b ids /\ a <> b).
Proof. exact generate_dups. Qed.
Print Assumptions C14_duplicates_stop.

(** A column holding one repeated value (the unset default) is numbered 1..n. *)
Theorem C14_unset_numbered : forall i n, generate_ids (repeat i (S n)) = Ok (map (fun k => Z.of_nat (S k)) (seq 0 (S n))).
Proof. exact generate_same. Qed.
Print Assumptions C14_unset_numbered.

(** Distinct user ids are kept when there are at least two clusters. *)
Theorem C14_user_ids_kept_partial : forall ids, NoDup ids -> 2 <= List.length ids -> generate_ids ids = Ok ids.
Proof. exact generate_kept. Qed.
Print Assumptions C14_user_ids_kept_partial.
Example C14_kept_example : generate_ids [7; 3; 12]%Z = Ok [7; 3; 12]%Z. Proof. reflexivity. Qed.
Example C14_stop_example : generate_ids [7; 3; 7]%Z = Err RuntimeError. Proof. reflexivity. Qed.

(** The id of a catalog with a single cluster is always replaced by 1. *)
Theorem C14_single_cluster_refuted : forall i, generate_ids [i] = Ok [1%Z].
Proof. intros i. apply (generate_same i 0). Qed.
Print Assumptions C14_single_cluster_refuted.

(** ** C15.  When post-processing succeeds: the catalog holds the processed clusters whose richness is at least the
    minimum, in order, and the member table holds the rows saved for exactly those clusters, in order. *)
Theorem C15_consistent : forall f proc cs mn cat mem, NoDup (map cl_id cs) ->
  postprocess mn (run_loop f proc cs) = Ok (cat, mem) ->
  (exists all, map cr_id all = map cl_id cs /\
     (forall k c, nth_error cs k = Some c -> nth_error all k = Some (row f proc cs k c)) /\
     cat = filter (fun r => Qle_bool mn (cr_lambda r)) all) /\
  (forall ms, mem = Some ms -> forall m, In m ms <->
     exists k c, nth_error cs k = Some c /\ (mn <= cr_lambda (row f proc cs k c))%Q /\ In m (saved f proc cs k c)) /\
  (forall ms, mem = Some ms ->
     ms = filter (fun m => Galfile.is_in (mr_id m) (map cr_id cat))
                 (List.concat (map (fun kc => saved f proc cs (fst kc) (snd kc)) (combine (seq 0 (List.length cs)) cs)))).
Proof.
  intros f proc cs mn cat mem Hnd H. apply post_ok in H as [Hcat Hmem].
  assert (Hms : forall ms, mem = Some ms ->
     ms = filter (fun m => Galfile.is_in (mr_id m) (map cr_id cat))
                 (List.concat (map (fun kc => saved f proc cs (fst kc) (snd kc)) (combine (seq 0 (List.length cs)) cs)))).
  { intros ms E. rewrite <- run_mem. destruct (rs_mem (run_loop f proc cs)) as [l|]; cbn in Hmem; [|congruence].
    cbn [olist]. congruence. }
  split; [|split; [|exact Hms]].
  - exists (rs_cat (run_loop f proc cs)). split; [apply run_cat_ids|]. split; [apply run_cat|exact Hcat].
  - intros ms E m. rewrite (Hms ms E), filter_In, in_concat, Verif.Proofs.Galfile.is_in_iff.
    assert (Hrow : forall k c, nth_error cs k = Some c -> cr_id (row f proc cs k c) = cl_id c) by (intros; apply step_id).
    split.
    + intros [(l & Hl & Hm) Hin]. apply in_map_iff in Hl as ([k c] & <- & Hkc). cbn [fst snd] in Hm.
      assert (Hk : nth_error cs k = Some c).
      { clear - Hkc. apply In_nth_error in Hkc as [j Hj].
        assert (G : forall (l : list cl) s, nth_error (combine (seq s (List.length l)) l) j = Some (k, c) -> k = s + j /\ nth_error l j = Some c).
        { clear. intros l; revert j. induction l as [|x l IH]; intros j s H; [destruct j; discriminate|].
          destruct j as [|j]; cbn in H; [injection H as <- <-; split; [lia|reflexivity]|].
          apply IH in H as [-> H]. split; [lia|exact H]. }
        apply G in Hj as [-> Hj]. exact Hj. }
      exists k, c. split; [exact Hk|]. split; [|exact Hm].
      rewrite (saved_id _ _ _ _ _ _ Hm) in Hin. rewrite Hcat in Hin.
      apply in_map_iff in Hin as (r & Hr & Hin). apply filter_In in Hin as [Hin Hle].
      apply In_nth_error in Hin as [j Hj].
      assert (Hjc : exists d, nth_error cs j = Some d).
      { destruct (nth_error cs j) as [d|] eqn:Ed; [eauto|]. apply nth_error_None in Ed.
        assert (j < List.length (rs_cat (run_loop f proc cs))) by (apply nth_error_Some; congruence).
        rewrite run_cat_length in H. lia. }
      destruct Hjc as [d Hd]. rewrite (run_cat f proc cs j d Hd) in Hj. injection Hj as <-.
      rewrite (Hrow j d Hd) in Hr.
      assert (j = k).
      { apply (proj1 (NoDup_nth_error (map cl_id cs)) Hnd).
        - rewrite map_length. apply nth_error_Some. congruence.
        - rewrite !nth_error_map, Hd, Hk. cbn. congruence. }
      subst j. assert (d = c) by congruence. subst d. apply Qle_bool_iff, Hle.
    + intros (k & c & Hk & Hle & Hm). split.
      * exists (saved f proc cs k c). split; [|exact Hm]. apply in_map_iff. exists (k, c). split; [reflexivity|].
        assert (G : forall (l : list cl) s j, nth_error l j = Some c -> In (s + j, c) (combine (seq s (List.length l)) l)).
        { clear. induction l as [|x l IH]; intros s j H; [destruct j; discriminate|].
          destruct j as [|j]; cbn in *; [injection H as <-; left; f_equal; lia|].
          right. replace (s + S j) with (S s + j) by lia. apply IH, H. }
        apply (G cs 0 k Hk).
      * rewrite (saved_id _ _ _ _ _ _ Hm), <- (Hrow k c Hk). apply in_map. rewrite Hcat. apply filter_In.
        split; [|apply Qle_bool_iff, Hle]. apply nth_error_In with k. apply run_cat, Hk.
Qed.
Print Assumptions C15_consistent.

(** What is saved for a cluster: its neighbours that pass the membership threshold and were more than 1% free,
    plus the centering candidates; the free probability recorded is the one handed, zeroed below threshold. *)
Theorem C15_member_rows : forall f id l m, In m (mem_of f id l) <->
  exists g pf o, In ((g, pf), o) l /\ m = mkMR id g (no_p o) (if mem_ok f o then pf else 0%Q) /\
  ((mem_ok f o = true /\ (1#100 < pf)%Q) \/ no_cand o = true).
Proof. exact mem_of_spec. Qed.
Print Assumptions C15_member_rows.

(** Post-processing succeeds when some cluster passes and at least one member was saved... *)
Theorem C15_succeeds_partial : forall f proc cs mn, NoDup (map cl_id cs) ->
  (exists r, In r (rs_cat (run_loop f proc cs)) /\ (mn <= cr_lambda r)%Q) ->
  rs_mem (run_loop f proc cs) <> Some [] ->
  exists cat mem, postprocess mn (run_loop f proc cs) = Ok (cat, mem).
Proof. intros f proc cs mn H. apply post_succeeds. rewrite run_cat_ids. exact H. Qed.
Print Assumptions C15_succeeds_partial.

(** ... and fails with ValueError, instead of producing an empty catalog, when members were saved but no cluster
    reaches the minimum. *)
Theorem C15_none_passes_refuted : forall f proc cs mn ms, rs_mem (run_loop f proc cs) = Some ms ->
  (forall r, In r (rs_cat (run_loop f proc cs)) -> (cr_lambda r < mn)%Q) ->
  postprocess mn (run_loop f proc cs) = Err ValueError.
Proof.
  intros f proc cs mn ms E H. unfold postprocess. rewrite E.
  assert (Hf : filter (fun r => Qle_bool mn (cr_lambda r)) (rs_cat (run_loop f proc cs)) = []).
  { induction (rs_cat (run_loop f proc cs)) as [|r l IH]; [reflexivity|]. cbn [filter].
    assert (Hq : Qle_bool mn (cr_lambda r) = false) by (apply Qle_bool_false, H; left; reflexivity).
    rewrite Hq. apply IH. intros r' Hr. apply H. right; exact Hr. }
  rewrite Hf. reflexivity.
Qed.
Print Assumptions C15_none_passes_refuted.
Example C15_none_passes_case : postprocess 30 (run_loop (mkFL true true false) grab [mkCL 1 [0; 1]]) = Err ValueError.
Proof. vm_compute. reflexivity. Qed.
Example C15_case : exists cat ms, postprocess 5 (run_loop (mkFL true true false) take_half [mkCL 1 [0; 1]; mkCL 2 []; mkCL 3 [1; 4]])
   = Ok (cat, Some ms) /\ map cr_id cat = [1; 3]%Z /\ map mr_id ms = [1; 1; 3; 3]%Z.
Proof. eexists _, _. split; [vm_compute; reflexivity|]. split; reflexivity. Qed.
(** Without clusters there are no numbers to give: a ValueError. *)
Theorem C14_empty_refuted : generate_ids [] = Err ValueError.
Proof. reflexivity. Qed.
Print Assumptions C14_empty_refuted.
