(** Properties C86, C87, C88 (pipeline/redmappertask.py). *)
From Verif.Base Require Import Py PyLemmas.
From Verif.Model Require Import PixelTask.
From Verif.Spec Require Import PixelTask.
From Verif.Proofs Require Import PixelTask.
From Coq Require Import Lia List String. Import ListNotations.
Local Open Scope nat_scope.
Local Open Scope list_scope.

(** C86.  Whatever the history of runs and kills: every catalog of the pixel is a single table that some run made of the
    catalog before it; members, when there, belong to the final catalog. *)
Theorem C86_sound : forall r pixelized kills, sound r (history (redmapper_task r pixelized) 0 kills no_files).
Proof.
  intros r p kills. apply sound_phase, history_phase. constructor 1; reflexivity.
Qed.
Print Assumptions C86_sound.
(** C86.  A catalog that is there is never changed by later runs ... *)
Theorem C86_kept : forall r pixelized kills n d f t, sound r d -> holds d f t ->
  holds (history (redmapper_task r pixelized) n kills d) f t.
Proof. intros r p kills n d f t S. apply history_keeps, sound_phase, S. Qed.
Print Assumptions C86_kept.
(** C86.  ... a run whose three stages find clusters completes the pixel, from any state a kill left ... *)
Theorem C86_completes_partial : forall r n d, sound r d ->
  r_first r n <> None -> (forall t, r_like r n t <> None) -> (forall t, r_perc r n t <> None) ->
  snd (redmapper_task r true n d) = Ok tt /\ exists c, holds (writes d (fst (redmapper_task r true n d))) Final_cat c.
Proof. intros r n d S. apply task_completes, sound_phase, S. Qed.
Print Assumptions C86_completes_partial.
(** C86.  ... and a completed pixel is not run again. *)
Theorem C86_idle : forall r n d c, sound r d -> holds d Final_cat c -> redmapper_task r true n d = ([], Ok tt).
Proof. intros r n d c S. apply task_idle, sound_phase, S. Qed.
Print Assumptions C86_idle.
(** Finding: a pixel in which the first pass finds nothing (no catalog is written, with a warning) does not end: the
    next stage stops with an OSError because the file is missing.  The calibration's own worker handles this case. *)
Theorem C86_no_seeds_refuted : forall r n d, absent d First_cat -> absent d Like_cat -> r_first r n = None ->
  redmapper_task r true n d = ([], Err OSError).
Proof.
  intros r n d H1 H2 E. rewrite task_split. unfold stage0. change (fresh_name First) with First_cat. rewrite (present_absent _ _ H1), E.
  cbv zeta. cbn [nomem option_map output writes fold_left app]. unfold rest2, stage. change (fresh_name Like) with Like_cat.
  rewrite (present_absent _ _ H2). change (fresh_name First) with First_cat. rewrite (read_absent _ _ H1). reflexivity.
Qed.
Print Assumptions C86_no_seeds_refuted.
(** Finding: the same when the likelihood stage keeps no cluster. *)
Theorem C86_no_likelihoods_refuted : forall r n d a, holds d First_cat a -> absent d Like_cat -> absent d Final_cat ->
  r_like r n a = None -> redmapper_task r true n d = ([], Err OSError).
Proof.
  intros r n d a H1 H2 H3 E. rewrite task_split. unfold stage0. change (fresh_name First) with First_cat. rewrite (present_holds _ _ _ H1).
  cbv zeta. cbn [writes fold_left app]. unfold rest2, stage. change (fresh_name Like) with Like_cat.
  rewrite (present_absent _ _ H2). change (fresh_name First) with First_cat. rewrite (read_holds _ _ _ H1). cbn [bind]. rewrite E.
  cbn [nomem option_map output writes fold_left]. change (fresh_name Final) with Final_cat. rewrite (present_absent _ _ H3).
  change (fresh_name Like) with Like_cat. rewrite (read_absent _ _ H2). reflexivity.
Qed.
Print Assumptions C86_no_likelihoods_refuted.
(** Finding: a run killed between the final catalog and its members leaves a pixel without members for good: no later
    history of runs writes them. *)
Theorem C86_members_lost_refuted : forall r kills n d c, sound r d -> holds d Final_cat c -> absent d Final_mem ->
  absent (history (redmapper_task r true) n kills d) Final_mem.
Proof.
  intros r kills. induction kills as [|k t IH]; intros n d c S H A; cbn [history]; [exact A|].
  apply sound_phase in S. rewrite (task_idle r n d c S H). cbn [fst]. rewrite firstn_nil. cbn.
  apply (IH _ _ c); [apply sound_phase, S|exact H|exact A].
Qed.
Print Assumptions C86_members_lost_refuted.
(** The pixel task is refused for galaxy files that are not split into pixels. *)
Theorem C86_refused : forall r n d, redmapper_task r false n d = ([], Err ValueError).
Proof. reflexivity. Qed.
Print Assumptions C86_refused.

(** C87.  The zmask task: after any history at most one table, made by one of the runs; a run that finds the file does
    nothing, one that does not writes what it made. *)
Theorem C87_zmask : forall r kills n d, (absent d Zmask_cat \/ exists t i, holds d Zmask_cat t /\ r_zmask r i = Some t) ->
  let d' := history (zmask_task r true) n kills d in
  (absent d' Zmask_cat \/ exists t i, holds d' Zmask_cat t /\ r_zmask r i = Some t) /\
  (forall t, holds d' Zmask_cat t -> fst (zmask_task r true (n + List.length kills) d') = []) /\
  (absent d' Zmask_cat -> fst (zmask_task r true (n + List.length kills) d') =
     match r_zmask r (n + List.length kills) with Some t => [(Zmask_cat, t)] | None => [] end).
Proof.
  intros r kills. induction kills as [|k l IH]; intros n d H; cbv zeta; cbn [history].
  - split; [exact H|]. split.
    + intros t Ht. cbn. unfold stage0. change (fresh_name Zmask) with Zmask_cat. rewrite (present_holds _ _ _ Ht). reflexivity.
    + intros A. cbn. unfold stage0. change (fresh_name Zmask) with Zmask_cat. rewrite (present_absent _ _ A). destruct (r_zmask r (n + 0)); reflexivity.
  - cbn [List.length]. replace (n + S (List.length l)) with (S n + List.length l) by lia. apply IH.
    destruct H as [A|(t & i & Ht & E)].
    + cbn. unfold stage0. change (fresh_name Zmask) with Zmask_cat. rewrite (present_absent _ _ A).
      destruct (r_zmask r n) as [t|] eqn:E; cbn [nomem option_map output]; [|rewrite firstn_nil; left; exact A].
      destruct k as [|k]; [left; exact A|]. cbn [firstn]. rewrite firstn_nil. right. exists t, n. split; [apply holds_write, A|exact E].
    + cbn. unfold stage0. change (fresh_name Zmask) with Zmask_cat. rewrite (present_holds _ _ _ Ht). rewrite firstn_nil.
      right. exists t, i. split; assumption.
Qed.
Print Assumptions C87_zmask.
(** Finding: the zscan task looks for the file without the code's version in its name and writes the one with it.
    Every repetition runs again and appends a table; a reader gets the oldest. *)
Theorem C87_zscan_rerun_refuted : forall r c m, (forall i, r_zscan r i = Some (c i, Some (m i))) -> forall k,
  history (zscan_task r true) 0 (repeat 2 k) no_files Zscan_cat = map c (seq 0 k).
Proof.
  intros r c m E.
  assert (G : forall k n d, absent d (fresh_name Zscan) ->
    history (zscan_task r true) n (repeat 2 k) d Zscan_cat = d Zscan_cat ++ map c (seq n k)).
  { induction k as [|k IH]; intros n d A; cbn [repeat history]; [cbn; rewrite app_nil_r; reflexivity|].
    unfold zscan_task at 2. cbn [negb fst]. unfold stage0. rewrite (present_absent _ _ A), E. cbn [output firstn].
    rewrite IH.
    - change (writes d [(mkFN Zscan true false, c n); (mkFN Zscan true true, m n)]) with (write (write d (Zscan_cat, c n)) (mkFN Zscan true true, m n)).
      rewrite write_other by discriminate. rewrite write_same. rewrite <- app_assoc. reflexivity.
    - change (writes d [(mkFN Zscan true false, c n); (mkFN Zscan true true, m n)]) with (write (write d (Zscan_cat, c n)) (mkFN Zscan true true, m n)).
      apply absent_other; [discriminate|]. apply absent_other; [discriminate|exact A]. }
  intros k. rewrite G by reflexivity. reflexivity.
Qed.
Print Assumptions C87_zscan_rerun_refuted.
(** Finding: the runcat task stops with a NameError on every pixelized galaxy file. *)
Theorem C87_runcat_refuted : forall d, runcat_task true d = ([], Err NameError).
Proof. reflexivity. Qed.
Print Assumptions C87_runcat_refuted.
(** A galaxy file that is not pixelized is refused by each of the tasks, and nothing is written. *)
Theorem C87_not_pixelized : forall r n d, redmapper_task r false n d = ([], Err ValueError) /\ runcat_task false d = ([], Err ValueError) /\
  zmask_task r false n d = ([], Err ValueError) /\ zscan_task r false n d = ([], Err ValueError).
Proof. intros. repeat split. Qed.
Print Assumptions C87_not_pixelized.

(** C88.  An explicit path is where the output goes. *)
Theorem C88_path_partial : forall dirname configfile yaml p, output_dir dirname configfile yaml (Some p) = p.
Proof. reflexivity. Qed.
Print Assumptions C88_path_partial.
(** Finding: without one the output does not go to the configuration file's directory, as documented, but to the path
    in the configuration or else the working directory, wherever the configuration file is. *)
Theorem C88_default_refuted : forall dirname configfile yaml,
  output_dir dirname configfile yaml None = match yaml with Some p => p | None => "./"%string end.
Proof. reflexivity. Qed.
Print Assumptions C88_default_refuted.

(** cases that meet the hypotheses *)
Definition ex_r : runs := mkRuns (fun n => Some (Z.of_nat n)) (fun n t => Some (10 * t + Z.of_nat n)%Z)
  (fun n t => Some (10 * t + Z.of_nat n, Some 7)%Z) (fun _ => Some 5%Z) (fun n => Some (Z.of_nat n, Some 3%Z)).
Example C86_ex : let d := history (redmapper_task ex_r true) 0 [1; 1; 1; 3] no_files in
  holds d First_cat 0%Z /\ holds d Like_cat 1%Z /\ holds d Final_cat 12%Z /\ absent d Final_mem.
Proof. repeat split. Qed.
Example C86_ex_all : let d := history (redmapper_task ex_r true) 0 [1; 5] no_files in
  holds d First_cat 0%Z /\ holds d Like_cat 1%Z /\ holds d Final_cat 11%Z /\ holds d Final_mem 7%Z.
Proof. repeat split. Qed.
Example C87_ex : history (zscan_task ex_r true) 0 [2; 2; 2] no_files Zscan_cat = [0; 1; 2]%Z /\
  holds (history (zmask_task ex_r true) 0 [1; 1] no_files) Zmask_cat 5%Z.
Proof. split; reflexivity. Qed.
