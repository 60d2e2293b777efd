(** C174: a run in jobs and its consolidation. *)
From Coq Require Import Ascii String QArith Permutation Sorting.Sorted.
From Verif.Base Require Import Py PyLemmas Sort.
From Verif.Model Require Import Names Galfile Consolidate ConsFiles ConsOut DistRun.
From Verif.Spec Require Import Names ConsFiles Consolidate ConsOut DistRun.
From Verif.Proofs Require Import Names ConsFiles Consolidate ConsOut DistRun.
From Verif.Props Require Import Consolidate ConsOut.
From Coq Require Import Lia List. Import ListNotations.
Local Open Scope list_scope.
Local Open Scope nat_scope.

(** When all jobs have ended, in whatever order they wrote, killed and started again or not, the consolidation makes every output from the
    catalogues of all tiles in the order of their numbers: the clusters of a tile that lie in it and pass the cuts, with the rank of
    their likelihood in the whole run as number.  (Partial: names that are not understood, see C172; outputs with one name or without
    clusters, see C173.) *)
Theorem C174_complete_partial asort q os path base typ n out evs ps d d0 fs : argsort_spec asort -> readable path base n ps -> listing base typ n out evs ps d ->
  (forall p, In p ps -> out p <> None -> ended evs p) -> tables_of out ps fs ->
  NoDup (map o_name os) -> os <> [] -> (forall f, In f fs -> file_ok (q n) f) ->
  (forall o, In o os -> exists f c, In f fs /\ In c (kept (q n) f) /\ passes false (o_zmax o) (o_minl o) c = true) ->
  exists d' num ranked, cons_run asort q false os path base typ d d0 = (d', Ok tt) /\
    Permutation ranked (cats_from (q n) all_kept num 0 fs) /\ map c_id ranked = seqZ 1 (List.length ranked) /\ by_like ranked /\
    (forall o, In o os -> exists mem, d' (o_name o) = Some (cats_from (q n) (passes false (o_zmax o) (o_minl o)) num 0 fs, mem) /\
      incl (mems_from (q n) (passes false (o_zmax o) (o_minl o)) num 0 fs) mem /\
      ((forall f, In f fs -> List.length (mem_of (kept (q n) f) (f_mem f)) <> 1) -> mem = mems_from (q n) (passes false (o_zmax o) (o_minl o)) num 0 fs)) /\
    forall m, ~ In m (map o_name os) -> d' m = d0 m.
Proof.
  intros HA R L H T ND NO HF HP. destruct os as [|o0 os0] eqn:Eos; [congruence|]. rewrite <- Eos in *. assert (I0 : In o0 os) by (rewrite Eos; left; reflexivity).
  assert (B : forall p, out p <> None -> In p (filter (begun out evs) ps) <-> In p ps).
  { intros p O. rewrite filter_In. split; [tauto|]. intros I. split; [exact I|]. specialize (H p I O). unfold begun, ended in *. destruct (out p); [|congruence]. destruct (Nat.eqb_spec (fst (job_after evs p)) 0); [lia|reflexivity]. }
  destruct (run_settled asort q false os path base typ n out evs ps d d0 R L) as (fs' & T' & E); [intros; left; apply H; assumption| |].
  { destruct (HP o0 I0) as ([p cs ms] & c & If & _). apply T in If as [I O]. exists p. split; [exact I|]. split; [congruence|apply H; [exact I|congruence]]. }
  rewrite <- (tables_unique out _ _ fs' fs B T' T) in *. clear T. rename fs' into fs1. rewrite E.
  assert (A : forall o, In o os -> exists mem, alone asort (q n) false fs1 o (cats_from (q n) (passes false (o_zmax o) (o_minl o)) (rank_num asort (q n) fs1) 0 fs1, mem) /\
     incl (mems_from (q n) (passes false (o_zmax o) (o_minl o)) (rank_num asort (q n) fs1) 0 fs1) mem /\
     ((forall f, In f fs1 -> List.length (mem_of (kept (q n) f) (f_mem f)) <> 1) -> mem = mems_from (q n) (passes false (o_zmax o) (o_minl o)) (rank_num asort (q n) fs1) 0 fs1) /\
     Permutation (ranked_cats asort (q n) fs1) (cats_from (q n) all_kept (rank_num asort (q n) fs1) 0 fs1) /\ map c_id (ranked_cats asort (q n) fs1) = seqZ 1 (List.length (ranked_cats asort (q n) fs1)) /\ by_like (ranked_cats asort (q n) fs1)).
  { intros o I. destruct (task_spec_num asort (q n) false (o_zmax o) (o_minl o) fs1 HA HF) as (mem & X1 & X2 & X6 & X3 & X4 & X5); [intros f _ X; discriminate|apply HP, I|]. exists mem. split; [exact X1|]. split; [exact X2|]. split; [exact X6|]. auto. }
  destruct (C173_each_partial asort (q n) false os fs1 d0 ND) as (d' & D1 & D2 & D3); [|exact NO|intros o I; destruct (A o I) as (mem & X & _); eauto|].
  { intros X. destruct (HP o0 I0) as (f & c & If & _). rewrite X in If. destruct If. }
  exists d', (rank_num asort (q n) fs1), (ranked_cats asort (q n) fs1). destruct (A o0 I0) as (_ & _ & _ & _ & X3 & X4 & X5). repeat (split; [assumption|]). split; [|exact D3].
  intros o I. destruct (A o I) as (mem & X & Y & Y' & _). exists mem. split; [apply (D2 o _ I X)|split; [exact Y|exact Y']].
Qed.
Print Assumptions C174_complete_partial.
(** The result depends on nothing else: for any two histories in which all jobs end, and any order of the directories, the consolidation gives the
    same. *)
Theorem C174_history asort q sel os path base typ n out evs evs' ps d d' d0 : readable path base n ps -> listing base typ n out evs ps d -> listing base typ n out evs' ps d' ->
  (forall p, In p ps -> out p <> None -> ended evs p /\ ended evs' p) -> (exists p, In p ps /\ out p <> None) ->
  cons_run asort q sel os path base typ d d0 = cons_run asort q sel os path base typ d' d0.
Proof.
  intros R L L' H (p0 & I0 & O0). destruct (run_settled asort q sel os path base typ n out evs ps d d0 R L) as (fs & T & ->); [intros; left; apply H; assumption|exists p0; split; [exact I0|split; [exact O0|apply H; assumption]]|].
  destruct (run_settled asort q sel os path base typ n out evs' ps d' d0 R L') as (fs' & T' & ->); [intros; left; apply H; assumption|exists p0; split; [exact I0|split; [exact O0|apply H; assumption]]|].
  rewrite (tables_unique out (filter (begun out evs) ps) (filter (begun out evs') ps) fs fs'); [reflexivity| |exact T|exact T']. intros p O. rewrite !filter_In. split; intros [I _]; (split; [exact I|]); destruct (H p I O) as [X Y]; unfold begun, ended in *;
    (destruct (out p); [|congruence]); match goal with |- context [Nat.eqb ?a 0] => destruct (Nat.eqb_spec a 0); [lia|reflexivity] end.
Qed.
Print Assumptions C174_history.
(** Finding: nothing is checked for completeness.  While jobs have not begun to write, the consolidation succeeds, with the clusters of the
    tiles that have ended, as if the run had no other tiles. *)
Theorem C174_early_refuted asort q sel os path base typ n out evs ps d d0 : readable path base n ps -> listing base typ n out evs ps d ->
  (forall p, In p ps -> out p <> None -> ended evs p \/ not_begun evs p) -> (exists p, In p ps /\ out p <> None /\ ended evs p) ->
  exists here fs, (forall p, In p here <-> In p ps /\ out p <> None /\ ended evs p) /\ tables_of out here fs /\
    cons_run asort q sel os path base typ d d0 = consolidate_all asort (q n) sel os fs d0.
Proof.
  intros R L H X. destruct (run_settled asort q sel os path base typ n out evs ps d d0 R L H X) as (fs & T & E). exists (filter (begun out evs) ps), fs. split; [|split; [exact T|exact E]].
  intros p. rewrite filter_In. split.
  - intros [I B]. unfold begun in B. destruct (out p) as [t|] eqn:O; [|discriminate]. assert (O' : out p <> None) by congruence. split; [exact I|]. split; [congruence|]. destruct (H p I O') as [Y|Y]; [exact Y|]. unfold not_begun in Y. rewrite Y in B. discriminate.
  - intros (I & O & Y). split; [exact I|]. unfold begun, ended in *. destruct (out p); [|congruence]. destruct (Nat.eqb_spec (fst (job_after evs p)) 0); [lia|reflexivity].
Qed.
Print Assumptions C174_early_refuted.
(** A job in between stops the consolidation, with an OSError or a RuntimeError. *)
Theorem C174_between asort q sel os path base typ n out evs ps d d0 p : readable path base n ps -> listing base typ n out evs ps d ->
  In p ps -> out p <> None -> ~ ended evs p -> ~ not_begun evs p ->
  snd (cons_run asort q sel os path base typ d d0) = Err OSError \/ snd (cons_run asort q sel os path base typ d d0) = Err RuntimeError.
Proof.
  intros R L I O E N. assert (B : In p (filter (begun out evs) ps)).
  { apply filter_In. split; [exact I|]. unfold begun, not_begun in *. destruct (out p); [|congruence]. destruct (Nat.eqb_spec (fst (job_after evs p)) 0); [contradiction|reflexivity]. }
  destruct (found_begun base typ n out evs path ps d R L) as (qs & P & _ & T); [intros X; rewrite X in B; destruct B|]. unfold cons_run. rewrite T.
  assert (Rp : forall p, In p ps -> (0 <= p < 100000)%Z) by apply R.
  destruct (mapM_kind (read_tile path d) (map (fun p => (tile_path path base typ n p, p)) qs) OSError RuntimeError) as [X|X].
  - intros fp J. apply in_map_iff in J as (p' & <- & J). apply (Permutation_in _ (Permutation_sym P)), filter_In in J as [J J']. unfold begun in J'. destruct (out p') as [[cs ms]|] eqn:O'; [|discriminate].
    destruct (le_lt_dec 4 (fst (job_after evs p'))) as [K|K]; [left; eexists; apply (read_ended path base typ n out evs ps d p' cs ms L J O' K)|right].
    assert (W : 1 <= fst (job_after evs p') <= 3) by (destruct (Nat.eqb_spec (fst (job_after evs p')) 0); [discriminate|lia]).
    assert (O'' : out p' <> None) by congruence. rewrite (read_broken path base typ n out evs ps d p' Rp L J O'' W). destruct (Nat.eqb (fst (job_after evs p')) 2); auto.
  - exists (tile_path path base typ n p, p). eexists. split; [apply in_map_iff; exists p; split; [reflexivity|apply (Permutation_in _ P), B]|].
    apply (read_broken path base typ n out evs ps d p Rp L I O). unfold ended, not_begun in *. lia.
  - rewrite X. left. reflexivity.
  - rewrite X. right. reflexivity.
Qed.
Print Assumptions C174_between.
(** Finding: a job that is killed after it began to write and before it wrote all is never repaired: however often it is started again, whatever
    the other jobs do, no consolidation succeeds. *)
Theorem C174_killed_refuted asort q sel os path base typ n out evs more ps d d0 p : readable path base n ps -> listing base typ n out (evs ++ Kill p :: more) ps d ->
  In p ps -> out p <> None -> ~ ended evs p -> ~ not_begun evs p -> exists e, snd (cons_run asort q sel os path base typ d d0) = Err e.
Proof.
  intros R L I O E N. assert (K : job_after (evs ++ [Kill p]) p = (fst (job_after evs p), true)).
  { unfold job_after. rewrite fold_left_app. cbn [fold_left job_step]. rewrite Z.eqb_refl. reflexivity. }
  assert (F : fst (job_after (evs ++ Kill p :: more) p) = fst (job_after evs p)).
  { change (evs ++ Kill p :: more) with (evs ++ [Kill p] ++ more). rewrite app_assoc. rewrite killed_stays; rewrite K; [reflexivity| |reflexivity]. unfold not_begun in N. cbn [fst]. lia. }
  destruct (C174_between asort q sel os path base typ n out (evs ++ Kill p :: more) ps d d0 p R L I O) as [X|X]; [unfold ended in *; rewrite F; exact E|unfold not_begun in *; rewrite F; exact N|eauto|eauto].
Qed.
Print Assumptions C174_killed_refuted.
(** Killed before it writes, a job that is started again goes on from the start; a job that is not killed ends after its four steps. *)
Theorem C174_restarted p evs more : not_begun evs p -> (forall e, In e more -> e <> Kill p) -> 4 <= List.length (filter (fun e => match e with Write x => Z.eqb x p | Kill _ => false end) more) -> ended (evs ++ more) p.
Proof.
  intros N K C. unfold ended, not_begun in *. unfold job_after in *. rewrite fold_left_app. set (j := fold_left (job_step p) evs (0, false)) in *. clearbody j.
  assert (X : forall j, (fst j = 0 \/ snd j = false) -> fst (fold_left (job_step p) more j) = fst j + List.length (filter (fun e => match e with Write x => Z.eqb x p | Kill _ => false end) more)).
  { clear N j C. induction more as [|e more IH]; intros j H; cbn [fold_left filter List.length]; [lia|]. assert (K' : forall e, In e more -> e <> Kill p) by (intros; apply K; right; assumption). specialize (IH K').
    destruct e as [x|x]; cbn [job_step].
    - destruct (Z.eqb_spec x p) as [->|D]; [|apply IH; exact H]. cbn [List.length]. assert (G : (snd j && (1 <=? fst j))%bool = false).
      { destruct H as [H|H]; rewrite H; [apply Bool.andb_false_r|reflexivity]. } rewrite G. rewrite IH by (right; reflexivity). cbn [fst]. lia.
    - destruct (Z.eqb_spec x p) as [->|D]; [exfalso; apply (K (Kill p)); [left; reflexivity|reflexivity]|apply IH; exact H]. }
  rewrite X by (left; exact N). lia.
Qed.
Print Assumptions C174_restarted.
(** a case: three tiles, the jobs of two write by turns, the third finds nothing; job 1 was killed once before it wrote *)
Definition ex_out (p : Z) : option tables :=
  if Z.eqb p 1 then Some ([mkClus 7 1 0 30 1 30 (2#10) 101; mkClus 8 2 0 20 1 20 (2#10) 102], [mkMem 7 1001; mkMem 8 1002]) else
  if Z.eqb p 2 then Some ([mkClus 7 2 0 25 1 40 (2#10) 201], [mkMem 7 2001; mkMem 7 2002]) else None.
Definition ex_evs : list event := [Kill 1; Write 2; Write 1; Write 1; Write 2; Write 2; Write 1; Write 2; Kill 2; Write 1]%Z.
Definition ex_dir (evs : list event) : dir := (s_ "run.yml", Other) :: flat_map (tile_files (s_ "run") (s_ "final") 4 ex_out evs) [2; 1; 3]%Z.
Example C174_example : let o := mkOut 5 (fun _ => 1%Q) (extraname 5 None) in
  readable (s_ "/out") (s_ "run") 4 [1; 2; 3]%Z /\ listing (s_ "run") (s_ "final") 4 ex_out ex_evs [1; 2; 3]%Z (ex_dir ex_evs) /\
  (forall p, In p [1; 2; 3]%Z -> ex_out p <> None -> ended ex_evs p) /\
  (let r := cons_run argsort (fun _ => ex_cut) false [o] (s_ "/out") (s_ "run") (s_ "final") (ex_dir ex_evs) (fun _ => None) in
   snd r = Ok tt /\ option_map (fun t => map (fun c => (c_id c, c_data c)) (fst t)) (fst r (s_ "lgt05")) = Some [(2, 101); (1, 201)]%Z) /\
  snd (cons_run argsort (fun _ => ex_cut) false [o] (s_ "/out") (s_ "run") (s_ "final") (ex_dir (firstn 6 ex_evs)) (fun _ => None)) = Err RuntimeError.
Proof.
  cbv zeta. split; [|split; [|split; [|split]]].
  - split; [apply search_tile_none; vm_compute; reflexivity|]. split; [lia|]. split; [lia|]. split; [intros p [<-|[<-|[<-|[]]]]; lia|]. repeat constructor; cbn; intuition lia.
  - exists [(s_ "run.yml", Other)]. split; [|split].
    + unfold ex_dir. transitivity (flat_map (tile_files (s_ "run") (s_ "final") 4 ex_out ex_evs) [2; 1; 3]%Z ++ [(s_ "run.yml", Other)]); [apply Permutation_cons_append|]. apply Permutation_app_tail. apply Permutation_flat_map. constructor.
    + intros x [<-|[]]. split; [rewrite <- glob_form; vm_compute; discriminate|]. intros p E. apply (f_equal (fun s => prefix_of (s_ "run_") s)) in E. vm_compute in E. discriminate.
    + vm_compute. repeat (constructor; [cbn; intuition discriminate|]). constructor.
  - intros p [<-|[<-|[<-|[]]]] O; [vm_compute; lia|vm_compute; lia|exfalso; apply O; reflexivity].
  - vm_compute. split; reflexivity.
  - vm_compute. reflexivity.
Qed.
