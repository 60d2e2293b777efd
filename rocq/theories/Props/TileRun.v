(** Properties C167 and C168 (the run over all tiles as a whole). *)
From Coq Require Import QArith ZArith Permutation.
From Verif.Base Require Import Py PyLemmas Sort.
From Verif.Model Require Import Restart RunAll Consolidate TileRun.
From Verif.Spec Require Import Restart Consolidate TileRun.
From Verif.Proofs Require Import Restart Consolidate RunAll TileRun.
From Coq Require Import Lia List. Import ListNotations.
Local Open Scope nat_scope.

(** C167.  The merged catalog of a run: exactly the usable clusters of each tile that lie in the tile, from that tile, by decreasing
    likelihood, numbered from 1, and their members with the new numbers. *)
Theorem C167_catalog : forall asort q R cat_of mem_of pixels, argsort_spec asort ->
  (forall f, In f (tile_files R cat_of mem_of pixels) -> file_ok q f) ->
  (exists f, In f (tile_files R cat_of mem_of pixels) /\ kept q f <> []) ->
  exists cat mem num, tile_run asort q R cat_of mem_of pixels (fun _ => empty_disk) = Ok (cat, mem) /\
    map c_id cat = seqZ 1 (List.length cat) /\ by_like cat /\
    Permutation cat (cats_from q all_kept num 0 (tile_files R cat_of mem_of pixels)) /\
    mem = mems_from q all_kept num 0 (tile_files R cat_of mem_of pixels) /\
    (forall c, In c cat -> exists p cs ms c0, In p pixels /\ tile_of (R p) cat_of mem_of = Some (cs, ms) /\ In c0 cs /\ c = cwith c0 (c_id c) /\ q_pixel q (c_pos c) = p).
Proof.
  intros asort q R cat_of mem_of pixels HA HF HK. destruct (run_catalog asort q R cat_of mem_of pixels HA HF HK) as (cat & mem & num & A & B & C & D & E).
  exists cat, mem, num. repeat (split; [assumption|]). intros c Hc. apply (Permutation_in _ D) in Hc. apply cats_In in Hc. destruct Hc as (f & c0 & n & Hf & Hc & ->).
  destruct (files_pix _ _ _ _ _ Hf) as (Hp & Ht). exists (f_hpix f), (f_cat f), (f_mem f), c0. apply filter_In in Hc. destruct Hc as (Hc & Hq). repeat (split; [assumption|]). split; [reflexivity|].
  unfold in_pixel_cut in Hq. apply andb_prop in Hq. destruct Hq as [Hq _]. apply andb_prop in Hq. destruct Hq as [Hq _]. apply Z.eqb_eq in Hq. exact Hq.
Qed.
Print Assumptions C167_catalog.

(** C167.  No place is reported twice, although the tiles overlap. *)
Theorem C167_once : forall asort q R cat_of mem_of pixels cat mem, argsort_spec asort -> NoDup pixels ->
  (forall f, In f (tile_files R cat_of mem_of pixels) -> file_ok q f /\ NoDup (map c_pos (f_cat f))) ->
  tile_run asort q R cat_of mem_of pixels (fun _ => empty_disk) = Ok (cat, mem) -> NoDup (map c_pos cat).
Proof.
  intros asort q R cat_of mem_of pixels cat mem HA HN HF H.
  destruct (existsb (fun f => negb (Nat.eqb (List.length (kept q f)) 0)) (tile_files R cat_of mem_of pixels)) eqn:K.
  - apply existsb_exists in K. destruct K as (f & Hf & K). destruct (run_catalog asort q R cat_of mem_of pixels HA) as (cat' & mem' & num & A & _ & _ & D & _); [intros; apply HF; assumption|exists f; split; [exact Hf|intros E; rewrite E in K; discriminate]|].
    rewrite A in H. injection H as -> ->. apply (NoDup_perm _ _ (Permutation_map c_pos D)). rewrite cats_pos. apply nodup_parts; [intros g Hg; apply HF, Hg|apply files_nodup, HN].
  - rewrite run_same in H by (intros; apply G0). destruct (tile_files R cat_of mem_of pixels) as [|f0 fs] eqn:E; [discriminate|]. rewrite <- E in *.
    assert (X : forall f, In f (tile_files R cat_of mem_of pixels) -> kept q f = []).
    { intros f Hf. destruct (kept q f) eqn:Ek; [reflexivity|]. exfalso. assert (Y : existsb (fun f => negb (Nat.eqb (List.length (kept q f)) 0)) (tile_files R cat_of mem_of pixels) = true) by (apply existsb_exists; exists f; split; [exact Hf|rewrite Ek; reflexivity]). congruence. }
    unfold Consolidate.consolidate in H. rewrite E in H at 1. cbn [map] in H.
    assert (M : forall fs s, (forall f, In f fs -> kept q f = []) -> merge q s (map (fun f => match kept q f with [] => mkFile (f_hpix f) (f_cat f) [] | _ => f end) fs) = Ok []).
    { clear. induction fs as [|f fs IH]; intros s X; [reflexivity|]. cbn [map merge]. pose proof (X f (or_introl eq_refl)) as Xf. rewrite Xf. cbn [f_hpix f_cat]. unfold kept in Xf. rewrite Xf. cbn. apply IH. intros; apply X; right; assumption. }
    rewrite M in H by exact X. discriminate.
Qed.
Print Assumptions C167_once.

(** C167.  A run that is killed and started again any number of times, never while a file is being written, ends with the same catalog as
    one that is not interrupted, or fails in the same way. *)
Theorem C167_restart_partial : forall asort q R cat_of mem_of pixels attempts,
  (forall p, In p pixels -> quiet (R p) (map (fun a : Z -> nat => a p) attempts) empty_disk) ->
  tile_run asort q R cat_of mem_of pixels (attempts_on R attempts (fun _ => empty_disk)) = tile_run asort q R cat_of mem_of pixels (fun _ => empty_disk).
Proof.
  intros asort q R cat_of mem_of pixels attempts H. rewrite (run_same asort q R cat_of mem_of pixels (fun _ => empty_disk)) by (intros; apply G0). apply run_same.
  intros p Hp. unfold attempts_on. apply quiet_good; [apply G0|apply H, Hp].
Qed.
Print Assumptions C167_restart_partial.

(** Finding: once a worker of one tile was killed while it wrote a file, or between a catalog and its members, no number of later
    executions, complete or not, gives a merged catalog: each of them fails. *)
Theorem C167_torn_refuted : forall asort q R cat_of mem_of pixels attempts disks p, In p pixels ->
  stuck (fun c => exists x, In x (cat_of c) /\ in_pixel_cut q p x = true) (disks p) ->
  exists e, tile_run asort q R cat_of mem_of pixels (attempts_on R attempts disks) = Err e.
Proof.
  intros asort q R cat_of mem_of pixels attempts disks p Hp S. unfold tile_run.
  assert (D : attempts_on R attempts disks p = disks p) by (apply (stuck_restarts _ _ _ _ S)).
  destruct (gather (map (tile_work R (attempts_on R attempts disks)) pixels)) as [rs|e] eqn:G; [|exists e; reflexivity]. cbn [bind].
  destruct (stuck_result _ (R p) _ S) as [E|(E & N)].
  - exfalso. destruct (gather_err (tile_work R (attempts_on R attempts disks)) pixels p OSError Hp) as (e & G'); [|congruence]. unfold tile_work. rewrite D, E. reflexivity.
  - assert (I : In (p, p) (with_file w_perc rs)).
    { apply gather_ok in G. clear -G Hp D E. induction G as [|p0 w ps ws Ew G IH]; [destruct Hp|]. unfold with_file. cbn [flat_map]. apply in_or_app. destruct Hp as [->|Hp].
      - left. unfold tile_work in Ew. rewrite D, E in Ew. injection Ew as <-. left. reflexivity.
      - right. apply IH, Hp. }
    destruct (with_file w_perc rs) as [|f0 fs0] eqn:W; [destruct I|]. rewrite <- W in *.
    destruct (gather_err (fun pf => read_tile q cat_of mem_of (run_full (R (snd pf)) true (attempts_on R attempts disks (snd pf))) (fst pf)) (with_file w_perc rs) (p, p) OSError I) as (e & G').
    + cbn [fst snd]. rewrite D, full_once, (stuck_still _ (R p) _ _ S). unfold read_tile. destruct S as [(A & B)|[(A & B & C)|[(A & B & C)|(A & B & c & C & (x & Hx & Hq) & M)]]].
      * exfalso. unfold worker in E. rewrite A in E. cbn [exists_file andb] in E. unfold do_like in E. rewrite B, A in E. discriminate.
      * congruence.
      * rewrite C. reflexivity.
      * rewrite C. cbn [read_file bind]. destruct (filter (in_pixel_cut q p) (cat_of c)) as [|y l] eqn:Ef; [|destruct M as [-> | ->]; reflexivity].
        assert (Hx' : In x (filter (in_pixel_cut q p) (cat_of c))) by (apply filter_In; auto). rewrite Ef in Hx'. destruct Hx'.
    + exists e. rewrite G'. reflexivity.
Qed.
Print Assumptions C167_torn_refuted.

(** C168.  Killed any number of times, never while the table of members is being written, the merging ends with both files complete. *)
Theorem C168_output_partial : forall c m kills, (forall k, In k kills -> k <> 3) ->
  out_full true c m (fold_left (fun o k => out_once true c m k o) kills (Absent, Absent)) = (Full c, Full m).
Proof.
  intros c m kills H.
  assert (I : forall o, (snd o = Absent \/ o = (Full c, Full m)) -> let o' := fold_left (fun o k => out_once true c m k o) kills o in snd o' = Absent \/ o' = (Full c, Full m)).
  { induction kills as [|k t IH]; intros o Ho; [exact Ho|]. cbn [fold_left]. apply IH; [intros; apply H; right; assumption|]. specialize (H k (or_introl eq_refl)). unfold out_once, out_events. destruct Ho as [Ho| ->].
    - rewrite Ho. cbn [exists_file]. rewrite Bool.andb_false_r. destruct k as [|[|[|[|k]]]]; cbn; [auto|auto|auto|congruence|]. rewrite firstn_nil. cbn. auto.
    - cbn. rewrite firstn_nil. cbn. auto. }
  destruct (I (Absent, Absent) (or_introl eq_refl)) as [E|E]; unfold out_full, out_events; [|rewrite E; reflexivity].
  rewrite E. cbn [exists_file]. rewrite Bool.andb_false_r. reflexivity.
Qed.
Print Assumptions C168_output_partial.
(** Finding: killed while the table of members is written, every later run with the check keeps the unfinished table. *)
Theorem C168_members_refuted : forall c m kills, out_full true c m (fold_left (fun o k => out_once true c m k o) (3 :: kills) (Absent, Absent)) = (Full c, Torn).
Proof.
  intros c m kills. cbn [fold_left]. change (out_once true c m 3 (Absent, Absent)) with (Full c, Torn). induction kills as [|k t IH]; [reflexivity|]. cbn [fold_left].
  assert (E : out_once true c m k (Full c, Torn) = (Full c, Torn)) by (unfold out_once, out_events; cbn; rewrite firstn_nil; reflexivity). rewrite E. exact IH.
Qed.
Print Assumptions C168_members_refuted.
(** Finding: with an earlier merged catalog there, a run without the check killed before it wrote the members leaves the new catalog (or a
    part of it) beside the old members, and later runs with the check keep that. *)
Theorem C168_mixed_refuted : forall c m c0 m0 k kills, k = 1 \/ k = 2 ->
  let o := fold_left (fun o k => out_once true c m k o) kills (out_once false c m k (Full c0, Full m0)) in
  out_full true c m o = o /\ snd o = Full m0 /\ (fst o = Torn \/ fst o = Full c).
Proof.
  intros c m c0 m0 k kills Hk. cbv zeta.
  assert (E : exists f, out_once false c m k (Full c0, Full m0) = (f, Full m0) /\ exists_file f = true /\ (f = Torn \/ f = Full c)) by (destruct Hk as [->| ->]; eexists; cbn; eauto).
  destruct E as (f & E & X & Y). rewrite E.
  assert (Z : forall k, out_once true c m k (f, Full m0) = (f, Full m0)) by (intros j; unfold out_once, out_events; cbn [fst snd exists_file]; rewrite X; cbn; rewrite firstn_nil; reflexivity).
  assert (F : fold_left (fun o k => out_once true c m k o) kills (f, Full m0) = (f, Full m0)) by (clear -Z; induction kills as [|j t IH]; [reflexivity|]; cbn [fold_left]; rewrite Z; exact IH).
  rewrite F. unfold out_full, out_events. cbn [fst snd exists_file]. rewrite X. cbn. auto.
Qed.
Print Assumptions C168_mixed_refuted.
(** C168.  Without the check a run that is not killed writes both files, whatever was there. *)
Theorem C168_without_check : forall c m o, out_full false c m o = (Full c, Full m).
Proof. intros c m [a b]. reflexivity. Qed.
Print Assumptions C168_without_check.

(** a case: two tiles that both find the cluster of tile 2, killed twice *)
Definition ex_cat (x : Z) : list cluster := if Z.eqb x 1 then [mkClus 1 1 0 30 1 5 0 0; mkClus 2 2 0 40 1 4 0 0] else [mkClus 1 2 0 50 1 9 0 0].
Definition ex_mem (x : Z) : list member := if Z.eqb x 1 then [mkMem 1 100; mkMem 2 200] else [mkMem 1 300].
Definition ex_R (p : Z) : Restart.runs := Restart.mkRuns (Some p) (fun c => Some c) (fun l => Some (l, l)).
Definition ex_q := mkCut (fun x => x) (1#2) 20 true.
Example C167_ex : (forall p, In p [1; 2]%Z -> quiet (ex_R p) (map (fun a : Z -> nat => a p) [fun _ => 1; fun p => if Z.eqb p 1 then 3 else 0; fun _ => 3]) empty_disk) /\
  (forall f, In f (tile_files ex_R ex_cat ex_mem [1; 2]%Z) -> file_ok ex_q f /\ NoDup (map c_pos (f_cat f))) /\
  tile_run argsort ex_q ex_R ex_cat ex_mem [1; 2]%Z (fun _ => empty_disk) = Ok ([mkClus 1 2 0 50 1 9 0 0; mkClus 2 1 0 30 1 5 0 0], [mkMem 2 100; mkMem 1 300]).
Proof.
  split; [intros p [<-|[<-|[]]]; cbn; unfold not_writing; cbn; intuition discriminate|]. split; [|vm_compute; reflexivity]. cbn. intros f [<-|[<-|[]]]; (split; [split|]); cbn; try (repeat constructor; cbn; intuition discriminate).
  - intros c [<-|[]]. exists (mkMem 1 100). cbn. auto.
  - intros c [<-|[]]. exists (mkMem 1 300). cbn. auto.
Qed.
