(** C36, C37: consolidation of per-pixel catalogs. *)
From Coq Require Import QArith Lqa Permutation Sorting.Sorted.
From Verif.Base Require Import Py PyLemmas Sort.
From Verif.Model Require Import Consolidate.
From Verif.Spec Require Import Consolidate.
From Verif.Proofs Require Import Consolidate.
Local Open Scope nat_scope.

(** When ids are unique in every file, every surviving cluster has a member and at least one cluster survives: the
    consolidated ids are 1..n in decreasing likelihood, there is a renumbering of the clusters file by file such that
    the catalog holds exactly the surviving clusters, each once with all its data and its new id, and the member table
    holds exactly the members of surviving clusters, each with all its data and the new id of its own cluster. *)
Theorem C36_consolidated : forall asort q fs, argsort_spec asort -> (forall f, In f fs -> file_ok q f) ->
  (exists f, In f fs /\ kept q f <> []) ->
  exists cat mem num, consolidate asort q fs = Ok (cat, mem) /\ map c_id cat = seqZ 1 (List.length cat) /\ by_like cat /\
    Permutation cat (cats_from q all_kept num 0 fs) /\ mem = mems_from q all_kept num 0 fs.
Proof. exact consolidate_spec. Qed.
Print Assumptions C36_consolidated.
(** No surviving cluster at all: AttributeError instead of an empty catalog. *)
Theorem C36_nothing_refuted : forall asort q fs, fs <> [] -> (forall f, In f fs -> kept q f = []) -> consolidate asort q fs = Err AttributeError.
Proof.
  intros asort q fs Hne H. assert (E : forall s, merge q s fs = Ok []).
  { intros s. clear Hne. induction fs as [|f fs IH]; [reflexivity|]. cbn [merge]. fold (kept q f). rewrite (H f (or_introl eq_refl)). apply IH. intros; apply H; right; assumption. }
  unfold consolidate. destruct fs; [congruence|]. rewrite E. reflexivity.
Qed.
Print Assumptions C36_nothing_refuted.
(** The pipeline task, for every richness cut and volume limit: numbers are ranks of likelihood among all surviving
    clusters of all files; a cluster of the output carries its rank and a member the rank of its cluster. *)
Theorem C36_task : forall asort q zmax minl fs, argsort_spec asort -> (forall f, In f fs -> file_ok q f) ->
  (exists f c, In f fs /\ In c (kept q f) /\ passes false zmax minl c = true) ->
  exists mem num ranked, consolidate_task asort q false zmax minl fs = Ok (cats_from q (passes false zmax minl) num 0 fs, mem) /\
    incl (mems_from q (passes false zmax minl) num 0 fs) mem /\
    ((forall f, In f fs -> List.length (mem_of (kept q f) (f_mem f)) <> 1) -> mem = mems_from q (passes false zmax minl) num 0 fs) /\
    Permutation ranked (cats_from q all_kept num 0 fs) /\ map c_id ranked = seqZ 1 (List.length ranked) /\ by_like ranked.
Proof. intros asort q zmax minl fs HA HF HE. apply task_spec; auto. intros f _ E. discriminate. Qed.
Print Assumptions C36_task.

Definition ex_q : pcut := mkCut (fun p => p) (1#2) 5 false.
Definition ex_f1 : pfile := mkFile 1 [mkClus 1 1 0 30 1 10 (2#10) 101; mkClus 2 1 0 3 1 50 (2#10) 102; mkClus 3 1 (1#10) 20 2 30 (3#10) 103; mkClus 4 9 0 40 1 60 (3#10) 104]
  [mkMem 1 1001; mkMem 3 1002; mkMem 2 1003; mkMem 1 1004; mkMem 4 1005].
Definition ex_f2 : pfile := mkFile 2 [mkClus 1 2 0 25 (3#2) 20 (5#10) 201] [mkMem 1 2001].
Example C36_example : (forall f, In f [ex_f1; ex_f2] -> file_ok ex_q f) /\
  match consolidate argsort ex_q [ex_f1; ex_f2] with
  | Ok (cat, mem) => map (fun c => (c_id c, c_data c)) cat = [(1, 103); (2, 201); (3, 101)]%Z /\
                     map (fun m => (m_id m, m_data m)) mem = [(3, 1001); (1, 1002); (3, 1004); (2, 2001)]%Z
  | Err _ => False
  end.
Proof.
  split; [|vm_compute; auto]. intros f [<-|[<-|[]]]; (split; [cbn; repeat constructor; cbn; intuition discriminate|]); cbn.
  - intros c [<-|[<-|[]]]; [exists (mkMem 1 1001)|exists (mkMem 3 1002)]; cbn; auto.
  - intros c [<-|[]]. exists (mkMem 1 2001). cbn; auto.
Qed.
(** With a richness cut the ids of an output of the task are not 1..n and the rows not in order of likelihood. *)
Theorem C36_task_gaps_refuted : exists q zmax minl fs cat mem, (forall f, In f fs -> file_ok q f) /\
  consolidate_task argsort q false zmax minl fs = Ok (cat, mem) /\ map c_id cat <> seqZ 1 (List.length cat) /\ ~ by_like cat.
Proof.
  exists ex_q, (fun _ => 1%Q), 22%Q, [ex_f1; ex_f2]. eexists. eexists. split; [apply C36_example|]. split; [vm_compute; reflexivity|].
  split; [vm_compute; discriminate|]. intros H. inversion H as [|? ? _ F]; subst. inversion F as [|? ? G _]; subst. vm_compute in G. apply G. reflexivity.
Qed.
Print Assumptions C36_task_gaps_refuted.

(** The task's cut, when scale values are off, or on and no file loses a cluster in the pixel cut (or all of them):
    a surviving cluster is in the output iff its richness (over its own scale value) exceeds the cut and its redshift is
    below the limit at its own position; its members are all there, and nothing else unless a file has exactly one
    member. *)
Theorem C37_selection_partial : forall asort q sel zmax minl fs, argsort_spec asort -> (forall f, In f fs -> file_ok q f) ->
  (sel = true -> forall f, In f fs -> kept q f <> [] -> List.length (kept q f) = List.length (f_cat f)) ->
  (exists f c, In f fs /\ In c (kept q f) /\ passes sel zmax minl c = true) ->
  exists mem num, consolidate_task asort q sel zmax minl fs = Ok (cats_from q (passes sel zmax minl) num 0 fs, mem) /\
    incl (mems_from q (passes sel zmax minl) num 0 fs) mem /\
    ((forall f, In f fs -> List.length (mem_of (kept q f) (f_mem f)) <> 1) -> mem = mems_from q (passes sel zmax minl) num 0 fs).
Proof.
  intros asort q sel zmax minl fs HA HF HS HE. destruct (task_spec asort q sel zmax minl fs HA HF) as (mem & num & ranked & H1 & H2 & H3 & _); [|exact HE|eauto].
  intros f Hf Es. apply HS; assumption.
Qed.
Print Assumptions C37_selection_partial.
(** With scale values on, a file that loses some but keeps at least two clusters stops the task. *)
Theorem C37_scale_error_refuted : forall asort q zmax minl f fs, file_ok q f -> (forall g, In g fs -> file_ok q g) ->
  2 <= List.length (kept q f) < List.length (f_cat f) -> consolidate_task asort q true zmax minl (f :: fs) = Err ValueError.
Proof.
  intros asort q zmax minl f fs Hf HF [H1 H2]. unfold consolidate_task.
  rewrite (merge_ok q (f :: fs)) by (intros g [<-|Hg]; auto). cbn [bind blks]. destruct (Nat.eqb_spec (List.length (kept q f)) 0); [lia|].
  cbn [select]. unfold cat_use, np_div. cbn [b_cat b_scale blk]. rewrite !map_length. destruct (Nat.eqb_spec (List.length (kept q f)) (List.length (f_cat f))); [lia|].
  destruct (kept q f) as [|a [|b l]]; cbn in H1; try lia. cbn [map]. destruct (f_cat f) as [|x [|y m]]; cbn in H2; try lia. reflexivity.
Qed.
Print Assumptions C37_scale_error_refuted.
(** With scale values on and one survivor, the cut is made with the scale value of the first row of the file. *)
Definition ex_f3 : pfile := mkFile 1 [mkClus 7 1 0 1 2 1 (2#10) 301; mkClus 8 1 0 30 1 1 (2#10) 302] [mkMem 8 3001; mkMem 8 3002].
(** Finding: a file in which the pixel cut leaves one cluster out of several stops the task with IndexError, although the cluster passes. *)
Theorem C37_scale_other_refuted : exists q zmax minl f c, file_ok q f /\ kept q f = [c] /\ passes true zmax minl c = true /\
  consolidate_task argsort q true zmax minl [f; ex_f2] = Err IndexError.
Proof.
  exists ex_q, (fun _ => 1%Q), 20%Q, ex_f3, (mkClus 8 1 0 30 1 1 (2#10) 302).
  split; [|split; [reflexivity|split; [reflexivity|vm_compute; reflexivity]]].
  split; [cbn; repeat constructor; cbn; intuition discriminate|]. cbn. intros c [<-|[]]. exists (mkMem 8 3001). cbn; auto.
Qed.
Print Assumptions C37_scale_other_refuted.
(** No cluster passes a cut: KeyError. *)
Theorem C37_nothing_refuted : forall asort q zmax minl fs, argsort_spec asort -> fs <> [] -> (forall f, In f fs -> file_ok q f) ->
  (forall f c, In f fs -> In c (kept q f) -> passes false zmax minl c = false) -> consolidate_task asort q false zmax minl fs = Err KeyError.
Proof.
  intros asort q zmax minl fs HA Hne HF HP. unfold consolidate_task. destruct fs as [|f0 fs0] eqn:Efs; [congruence|]. rewrite <- Efs in *.
  rewrite (merge_ok q fs HF 0). cbn [bind].
  assert (Hs : select false zmax minl (blks q 0 fs) None = Ok None).
  { assert (G : forall b, In b (blks q 0 fs) -> cat_use false zmax minl b = Ok (np_where (passes false zmax minl) (b_cat b)) /\ filter (passes false zmax minl) (b_cat b) = []).
    { intros b Hb. destruct (blks_In q fs b 0 Hb) as (f & s & Hf & Hk & ->). split; [apply blk_use; [intros E; discriminate|exact Hk]|].
      cbn [b_cat blk]. rewrite filter_map_comm. rewrite (filter_ext _ (passes false zmax minl)) by reflexivity.
      assert (E : filter (passes false zmax minl) (kept q f) = []); [|rewrite E; reflexivity].
      destruct (filter (passes false zmax minl) (kept q f)) as [|c l] eqn:E; [reflexivity|]. assert (Hin : In c (filter (passes false zmax minl) (kept q f))) by (rewrite E; left; reflexivity).
      apply filter_In in Hin. destruct Hin as [H1 H2]. rewrite (HP f c Hf H1) in H2. discriminate. }
    revert G. generalize (blks q 0 fs) as bs. induction bs as [|b bs IH]; intros G; [reflexivity|]. cbn [select]. destruct (G b (or_introl eq_refl)) as [-> E].
    cbn [bind]. rewrite Proofs.Randoms.where_length, E. apply IH. intros; apply G; right; assumption. }
  rewrite Hs. cbn [bind]. destruct (desc_take_total asort c_like (concat (map b_cat (blks q 0 fs))) HA) as [sc Esc]. rewrite (np_take_map c_id _ _ _ Esc). reflexivity.
Qed.
Print Assumptions C37_nothing_refuted.
(** A file with exactly one matched member, whose cluster is not in the cut: the member is written all the same. *)
Definition ex_f4 : pfile := mkFile 1 [mkClus 1 1 0 10 1 5 (2#10) 401; mkClus 2 1 0 30 1 6 (2#10) 402] [mkMem 1 4001].
(** Finding: a file with exactly one member keeps that member even when its cluster is dropped. *)
Theorem C37_orphan_refuted : exists q zmax minl f cat mem m, NoDup (map c_id (f_cat f)) /\
  consolidate_task argsort q false zmax minl [f] = Ok (cat, mem) /\ In m mem /\ ~ In (m_id m) (map c_id cat).
Proof.
  exists ex_q, (fun _ => 1%Q), 20%Q, ex_f4. do 3 eexists. split; [cbn; repeat constructor; cbn; intuition discriminate|].
  split; [vm_compute; reflexivity|]. split; [left; reflexivity|]. vm_compute. intuition discriminate.
Qed.
Print Assumptions C37_orphan_refuted.
Definition ex_f5 : pfile := mkFile 1 [mkClus 1 1 0 30 1 10 (2#10) 101; mkClus 3 1 (1#10) 40 2 30 (3#10) 103] [mkMem 1 1001; mkMem 3 1002; mkMem 1 1003].
Example C37_example : (forall f, In f [ex_f5; ex_f2] -> file_ok ex_q f /\ List.length (kept ex_q f) = List.length (f_cat f)) /\
  match consolidate_task argsort ex_q true (fun _ => (4#10)%Q) 15 [ex_f5; ex_f2] with
  | Ok (cat, mem) => map (fun c => (c_id c, c_data c)) cat = [(3, 101); (1, 103)]%Z /\ map (fun m => (m_id m, m_data m)) mem = [(3, 1001); (1, 1002); (3, 1003)]%Z
  | Err _ => False
  end.
Proof.
  split; [|vm_compute; auto]. intros f [<-|[<-|[]]]; (split; [|reflexivity]); (split; [cbn; repeat constructor; cbn; intuition discriminate|]); cbn.
  - intros c [<-|[<-|[]]]; [exists (mkMem 1 1001)|exists (mkMem 3 1002)]; cbn; auto.
  - intros c [<-|[]]. exists (mkMem 1 2001). cbn; auto.
Qed.
(** In general: with scale values on, and one cluster of several left by the pixel cut, the cut compares the richness of that cluster over
    the scale value of each row of the file; if it passes with that of any row but the first, the task stops with an IndexError.
    Finding: the scale values used are those of other clusters. *)
Theorem C37_one_survivor_refuted : forall asort q zmax minl f fs c r0 rest r, file_ok q f -> (forall g, In g fs -> file_ok q g) ->
  kept q f = [c] -> f_cat f = r0 :: rest -> In r rest -> (c_z c < zmax (c_pos c))%Q -> (minl < c_lambda c / c_scale r)%Q ->
  consolidate_task asort q true zmax minl (f :: fs) = Err IndexError.
Proof.
  intros asort q zmax minl f fs c r0 rest r Hf HF Hk Hc Hr Hz Hl. unfold consolidate_task.
  rewrite (merge_ok q (f :: fs)) by (intros g [<-|Hg]; auto). cbn [bind blks]. rewrite Hk. cbn [List.length Nat.eqb].
  set (b := blk q 0 f). assert (Eb : exists i, b_cat b = [cwith c i]) by (unfold b, blk; cbn [b_cat]; rewrite Hk; eexists; reflexivity).
  destruct Eb as [i Eb]. assert (Es : b_scale b = c_scale r0 :: map c_scale rest) by (unfold b, blk; cbn [b_scale]; rewrite Hc; reflexivity).
  cbn [select]. unfold cat_use. rewrite Eb, Es. unfold np_div. cbn [map List.length]. destruct rest as [|r1 rest]; [destruct Hr|]. cbn [map List.length Nat.eqb bind c_lambda cwith].
  unfold np_and. cbn [map List.length Nat.eqb bind c_z c_pos cwith]. assert (Z : Qlt_bool (c_z c) (zmax (c_pos c)) = true) by (apply Qlt_bool_iff, Hz). rewrite Z. cbn [andb].
  match goal with |- context [np_where (fun x : bool => x) ?l] => set (m := l) end.
  assert (X : exists j, In (S j) (np_where (fun x : bool => x) m)).
  { apply In_nth_error in Hr as [j Hj]. exists j. apply np_where_spec. exists true. split; [|reflexivity]. unfold m. cbn [nth_error].
    change (nth_error (map (fun x : bool => x) (map (fun x : Q => Qlt_bool minl x) (map (fun y : Q => (c_lambda c / y)%Q) (map c_scale (r1 :: rest))))) j = Some true).
    rewrite !nth_error_map, Hj. cbn [option_map]. f_equal. apply Qlt_bool_iff, Hl. }
  destruct X as [j X]. destruct (Nat.eqb_spec (List.length (np_where (fun x : bool => x) m)) 0) as [E|_]; [destruct (np_where (fun x : bool => x) m); [destruct X|discriminate]|].
  assert (T : np_take [c_id (cwith c i)] (np_where (fun x : bool => x) m) = Err IndexError).
  { clear -X. induction (np_where (fun x : bool => x) m) as [|k l IH]; [destruct X|]. cbn [np_take]. destruct X as [->|X]; [destruct j; reflexivity|].
    destruct (nth_error [c_id (cwith c i)] k); [rewrite (IH X)|]; reflexivity. }
  rewrite T. reflexivity.
Qed.
Print Assumptions C37_one_survivor_refuted.
Example C37_one_survivor_ex : exists q f c r0 rest r, file_ok q f /\ kept q f = [c] /\ f_cat f = r0 :: rest /\ In r rest /\ (20 < c_lambda c / c_scale r)%Q.
Proof.
  exists ex_q, ex_f3. do 3 eexists. exists (mkClus 8 1 0 30 1 1 (2#10) 302). split; [|split; [reflexivity|split; [reflexivity|split; [left; reflexivity|vm_compute; reflexivity]]]].
  split; [cbn; repeat constructor; cbn; intuition discriminate|]. cbn. intros c [<-|[]]. exists (mkMem 8 3001). cbn; auto.
Qed.
(** Which clusters survive: those in the file's pixel, with less than the largest masked fraction, richer than the smallest
    richness, divided by the cluster's scale value where the selection is on the scaled richness. *)
Theorem C36_survives q f c : In c (kept q f) <->
  In c (f_cat f) /\ q_pixel q (c_pos c) = f_hpix f /\ (c_maskfrac c < q_maxmask q)%Q /\
  (if q_scaled q then (q_minlambda q < c_lambda c / c_scale c)%Q else (q_minlambda q < c_lambda c)%Q).
Proof. unfold kept, in_pixel_cut. rewrite filter_In, !Bool.andb_true_iff, Z.eqb_eq, !Qlt_bool_iff. destruct (q_scaled q); tauto. Qed.
Print Assumptions C36_survives.
