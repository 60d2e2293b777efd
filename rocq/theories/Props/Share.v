(** C181: how much of a galaxy the clusters of a catalog have in total. *)
From Coq Require Import QArith ZArith Lqa.
From Verif.Base Require Import Py PyLemmas Sort Fn.
From Verif.Model Require Import Runner Consolidate.
From Verif.Model Require Galfile.
From Verif.Spec Require Import Runner Consolidate Share.
From Verif.Proofs Require Import Runner Consolidate Share.
From Coq Require Import Lia List. Import ListNotations.
Local Open Scope nat_scope.

(** Whatever the order and number of the clusters of a percolation run, the shares of a galaxy (p times pfree) in the member table, for the
    clusters of the catalog or any selection of them, are together at most one, provided that p is a probability and all members are
    inside the mask.  (The probability used up, the sum of the p, may be above one: C13_overcommitted_refuted.) *)
Theorem C181_share_partial : forall f proc cs mn cat ms keep g, fl_perc f = true -> proper f proc -> Forall (fun c => NoDup (cl_nb c)) cs ->
  postprocess mn (run_loop f proc cs) = Ok (cat, Some ms) -> (share_of (run_rows (filter keep ms)) g <= 1)%Q.
Proof. exact run_share. Qed.
Print Assumptions C181_share_partial.

(** a cluster that gives each neighbour probability 9/10 when something is free *)
Definition take_most (c : cl) (pf : list Q) : outcome :=
  mkOC false 20 (map (fun x => mkNO (9#10) ((9#10) * x) true true false) pf).
Example C181_proper : forall b, proper (mkFL true true b) take_most.
Proof. intros b c pf o H. apply in_map_iff in H as (x & <- & _). cbn. split; [lra|reflexivity]. Qed.
Example C181_share_ex : exists cat ms, postprocess 5 (run_loop (mkFL true true false) take_most [mkCL 1 [0; 1]; mkCL 2 [0; 2]; mkCL 3 [0]]) = Ok (cat, Some ms) /\
  (share_of (run_rows ms) 0 == 99 # 100)%Q /\ run_rows (filter (fun m => Nat.eqb (mr_gal m) 0) ms) = [(0, (9#10)%Q, (1 - 0)%Q); (0, (9#10)%Q, (1 - (0 + (9#10)))%Q)].
Proof. eexists _, _. split; [vm_compute; reflexivity|]. split; vm_compute; reflexivity. Qed.

Definition far (c : cl) (pf : list Q) : outcome := mkOC false 20 (map (fun _ => mkNO 1 1 false true false) pf).
(** Finding: a member outside the mask (percolation_memradius beyond the mask radius, or fainter than percolation_lmask) is never used up:
    any number of clusters can each have the whole galaxy. *)
Theorem C181_unmasked_refuted : forall b n, exists cs cat ms, Forall (fun c => NoDup (cl_nb c)) cs /\ List.length cs = S n /\
  postprocess 5 (run_loop (mkFL true true b) far cs) = Ok (cat, Some ms) /\ (share_of (run_rows ms) 0 == inject_Z (Z.of_nat (S n)))%Q.
Proof.
  intros b n. set (cs := map (fun k => mkCL (Z.of_nat k) [0]) (seq 0 (S n))).
  assert (L : forall ks, run_loop (mkFL true true b) far (map (fun k => mkCL (Z.of_nat k) [0]) ks) =
     mkRS (map (fun k => mkCR (Z.of_nat k) 20) ks) (fun _ => 0%Q) (match ks with [] => None | _ => Some (map (fun k => mkMR (Z.of_nat k) 0 1 (1 - 0)%Q) ks) end)).
  { induction ks as [|k ks IH] using rev_ind; [reflexivity|]. rewrite map_app. cbn [map]. rewrite run_loop_snoc, IH. unfold run_step.
    assert (E : step (mkFL true true b) far (fun _ => 0%Q) (mkCL (Z.of_nat k) [0]) = (mkCR (Z.of_nat k) 20, fun _ => 0%Q, Some [mkMR (Z.of_nat k) 0 1 (1 - 0)%Q])) by (destruct b; reflexivity).
    cbn [map rs_pgal]. rewrite E. cbn [rs_cat rs_mem]. rewrite !map_app. cbn [map]. destruct ks as [|k0 ks]; [reflexivity|]. cbn [add_members app map]. rewrite ?map_app. reflexivity. }
  assert (A : exists cat mem, postprocess 5 (run_loop (mkFL true true b) far cs) = Ok (cat, mem)).
  { apply post_succeeds; unfold cs; rewrite L; cbn [rs_cat rs_mem seq].
    - rewrite map_map. apply FinFun.Injective_map_NoDup; [intros x y; apply Nat2Z.inj|]. apply (seq_NoDup (S n) 0).
    - exists (mkCR 0 20). split; [left; reflexivity|cbn; lra].
    - discriminate. }
  destruct A as (cat & mem & A). pose proof A as A'. apply post_ok in A' as [C M]. unfold cs in C, M. rewrite L in C, M. cbn [rs_cat rs_mem] in C, M.
  assert (C' : cat = map (fun k => mkCR (Z.of_nat k) 20) (seq 0 (S n))).
  { rewrite C. clear. induction (seq 0 (S n)) as [|k l IH]; [reflexivity|]. cbn [map filter cr_lambda]. change (Qle_bool 5 20) with true. cbv iota. rewrite IH. reflexivity. }
  exists cs, cat, (map (fun k => mkMR (Z.of_nat k) 0 1 (1 - 0)%Q) (seq 0 (S n))). split; [|split; [|split]].
  - apply Forall_forall. intros c Hc. apply in_map_iff in Hc as (k & <- & _). repeat constructor. intros [].
  - unfold cs. rewrite map_length, seq_length. reflexivity.
  - rewrite A, M. cbn [seq option_map]. do 3 f_equal. change (0 :: seq 1 n) with (seq 0 (S n)).
    rewrite C'. rewrite map_map. cbn [cr_id]. apply Proofs.Share.filter_true. intros m Hm. apply in_map_iff in Hm as (k & <- & Hk). cbn [mr_id].
    apply Verif.Proofs.Galfile.is_in_iff. apply in_map_iff. eauto.
  - assert (X : forall N s, (share_of (run_rows (map (fun k => mkMR (Z.of_nat k) 0 1 (1 - 0)%Q) (seq s N))) 0 == inject_Z (Z.of_nat N))%Q); [|apply X].
    clear. induction N as [|N IH]; intros s; [reflexivity|]. cbn [seq map]. specialize (IH (S s)). unfold run_rows, share_of in *. cbn [map Qsum fst snd mr_gal mr_p mr_pfree Nat.eqb].
    rewrite IH, Nat2Z.inj_succ. unfold Z.succ. rewrite inject_Z_plus. change (inject_Z 1) with 1%Q. ring.
Qed.
Print Assumptions C181_unmasked_refuted.

Definition centre (c : cl) (pf : list Q) : outcome := mkOC false 20 (map (fun _ => mkNO (9#10) (1#2) true true true) pf).
(** Finding: with cuts on the radius of members, a candidate for the centre is recorded also when the galaxy is used up more than once: its
    free probability in the member table, and with it its share, is negative. *)
Theorem C181_negative_refuted : exists cs cat ms m, proper (mkFL true true true) centre /\ Forall (fun c => NoDup (cl_nb c)) cs /\
  postprocess 5 (run_loop (mkFL true true true) centre cs) = Ok (cat, Some ms) /\ In m ms /\ (mr_p m * mr_pfree m < 0)%Q.
Proof.
  exists [mkCL 1 [0]; mkCL 2 [0]; mkCL 3 [0]]. eexists. eexists. exists (mkMR 3 0 (9#10) (1 - (0 + (9#10) + (9#10)))%Q).
  split; [intros c pf o H; apply in_map_iff in H as (x & <- & _); cbn; split; [lra|reflexivity]|].
  split; [repeat constructor; intros []|]. split; [vm_compute; reflexivity|]. split; [vm_compute; auto|vm_compute; reflexivity].
Qed.
Print Assumptions C181_negative_refuted.
(** Without these cuts no share is negative, if pmem is at most zero where nothing is free. *)
Theorem C181_positive_partial : forall f proc cs mn cat ms m, fl_perc f = true -> fl_memcuts f = false ->
  (forall c pf, Forall2 (fun x o => (0 <= no_p o)%Q /\ ((x <= 0)%Q -> (no_pmem o <= 0)%Q)) pf (oc_nbrs (proc c pf))) ->
  postprocess mn (run_loop f proc cs) = Ok (cat, Some ms) -> In m ms -> (0 <= mr_p m /\ 0 <= mr_pfree m)%Q.
Proof.
  intros f proc cs mn cat ms m Hf Hc HP H Hm. apply post_ok in H as [_ H]. pose proof (run_mem f proc cs) as R.
  destruct (rs_mem (run_loop f proc cs)) as [l|] eqn:E; [|discriminate]. cbn [option_map olist] in *.
  remember (filter (fun m => Galfile.is_in (mr_id m) (map cr_id cat)) l) as l'. injection H as ->. subst l'. apply filter_In in Hm as [Hm _].
  rewrite R in Hm. apply in_concat in Hm as (r & Hr & Hm). apply in_map_iff in Hr as ([k c] & <- & _). cbn [fst snd] in Hm. clear R E l.
  unfold saved in Hm. set (pg := rs_pgal (before f proc cs k)) in *. unfold step in Hm. destruct (cl_nb c) as [|n nb] eqn:En; [destruct Hm|]. rewrite <- En in Hm.
  destruct (oc_bad (proc c (handed f pg c))); [destruct Hm|]. cbn [snd] in Hm. destruct (fl_record f); [|destruct Hm].
  apply mem_of_spec in Hm as (g & pf & o & Hin & -> & _). cbn [mr_p mr_pfree].
  specialize (HP c (handed f pg c)). clear -HP Hin Hc. revert HP Hin. generalize (oc_nbrs (proc c (handed f pg c))) as os. generalize (handed f pg c) as pfs. generalize (cl_nb c) as gs. clear -Hc.
  intros gs pfs os HP. revert gs. induction HP as [|x y xs ys [A B] HP IH]; intros gs Hin; [destruct gs; destruct Hin|]. destruct gs as [|g0 gs]; [destruct Hin|].
  cbn [combine] in Hin. destruct Hin as [Hin|Hin]; [|apply (IH gs Hin)]. injection Hin as <- <- <-. split; [exact A|]. unfold mem_ok. rewrite Hc.
  destruct (Qlt_bool (1 # 100) (no_pmem y)) eqn:Q; [|lra]. apply Qlt_bool_iff in Q. destruct (Qlt_le_dec 0 x); [lra|]. specialize (B q). lra.
Qed.
Print Assumptions C181_positive_partial.
Example C181_positive_ex : forall c pf, Forall2 (fun x o => (0 <= no_p o)%Q /\ ((x <= 0)%Q -> (no_pmem o <= 0)%Q)) pf (oc_nbrs (take_most c pf)).
Proof. intros c pf. unfold take_most. cbn [oc_nbrs]. induction pf as [|x pf IH]; cbn [map]; constructor; [|exact IH]. cbn. split; [lra|]. intros. nra. Qed.

Definition small_first (c : cl) (pf : list Q) : outcome :=
  mkOC false (if Z.eqb (cl_id c) 1 then 2 else 20) (map (fun x => mkNO (9#10) ((9#10) * x) true true false) pf).
(** Finding: a cluster that is dropped from the catalog in the end keeps its claims: the only cluster of the catalog is given a tenth of its
    member, the rest of which no cluster has. *)
Theorem C181_dropped_refuted : exists cs cat ms, proper (mkFL true true false) small_first /\ Forall (fun c => NoDup (cl_nb c)) cs /\
  postprocess 3 (run_loop (mkFL true true false) small_first cs) = Ok (cat, Some ms) /\
  map cr_id cat = [2%Z] /\ (exists m, In m ms /\ mr_gal m = 0 /\ (mr_pfree m == 1#10)%Q) /\ (share_of (run_rows ms) 0 == 9 # 100)%Q.
Proof.
  exists [mkCL 1 [0; 1]; mkCL 2 [0; 2]]. eexists. eexists.
  split; [intros c pf o H; apply in_map_iff in H as (x & <- & _); cbn; split; [lra|reflexivity]|].
  split; [repeat constructor; cbn; intuition lia|]. split; [vm_compute; reflexivity|]. split; [reflexivity|]. split; [|vm_compute; reflexivity].
  eexists. split; [left; reflexivity|]. split; reflexivity.
Qed.
Print Assumptions C181_dropped_refuted.

(** ** The merged catalog of several tiles.  The share of a galaxy is at most the number of tiles that have the galaxy as a member; so at
    most one for a galaxy that only one tile has. *)
Theorem C181_tiles_partial : forall asort q dec fs cat mem g, argsort_spec asort -> (forall x, In x fs -> file_ok q x /\ of_a_run dec x) ->
  consolidate asort q fs = Ok (cat, mem) ->
  (share_of (file_rows dec mem) g <= inject_Z (Z.of_nat (List.length (filter (has_galaxy dec g) fs))))%Q.
Proof.
  intros asort q dec fs cat mem g HA HF H.
  destruct (existsb (fun f => negb (Nat.eqb (List.length (kept q f)) 0)) fs) eqn:K.
  - apply existsb_exists in K as (x & Hx & K). destruct (consolidate_spec asort q fs HA) as (cat' & mem' & num & A & _ & _ & _ & M).
    + intros y Hy. apply HF, Hy.
    + exists x. split; [exact Hx|]. intros E. rewrite E in K. discriminate.
    + rewrite A in H. injection H as -> ->. rewrite M. apply tiles_share. intros y Hy. apply HF, Hy.
  - exfalso. assert (X : forall f, In f fs -> kept q f = []).
    { intros f Hf. destruct (kept q f) eqn:Ek; [reflexivity|]. exfalso. enough (existsb (fun f => negb (Nat.eqb (List.length (kept q f)) 0)) fs = true) by congruence.
      apply existsb_exists. exists f. split; [exact Hf|]. rewrite Ek. reflexivity. }
    assert (E : forall s, merge q s fs = Ok []).
    { clear -X. induction fs as [|f fs IH]; intros s; [reflexivity|]. cbn [merge]. fold (kept q f). rewrite (X f (or_introl eq_refl)). apply IH. intros; apply X; right; assumption. }
    unfold consolidate in H. destruct fs; [discriminate|]. rewrite E in H. discriminate.
Qed.
Print Assumptions C181_tiles_partial.

Definition whole (c : cl) (pf : list Q) : outcome := mkOC false 20 (map (fun x => mkNO 1 x true true false) pf).
Definition one_tile (i : nat) : pfile := mkFile (Z.of_nat i) [mkClus 1 (Z.of_nat i) 0 30 1 5 0 0] [mkMem 1 0].
Definition cells (_ : Z) : nat * Q * Q := (0, 1%Q, (1 - 0)%Q).
(** Finding: each tile is percolated by itself and its borders overlap those of others, so that a galaxy near a border can be a whole member
    of a cluster in each of any number of tiles; merging keeps all of them. *)
Theorem C181_tiles_refuted : forall asort n, argsort_spec asort -> exists q fs cat mem, List.length fs = S n /\
  NoDup (map f_hpix fs) /\ (forall x, In x fs -> file_ok q x /\ of_a_run cells x) /\
  consolidate asort q fs = Ok (cat, mem) /\ NoDup (map c_pos cat) /\ (share_of (file_rows cells mem) 0 == inject_Z (Z.of_nat (S n)))%Q.
Proof.
  intros asort n HA. set (q := mkCut (fun x => x) (1#2) 20 true). set (fs := map one_tile (seq 0 (S n))).
  assert (K : forall i, kept q (one_tile i) = [mkClus 1 (Z.of_nat i) 0 30 1 5 0 0]).
  { intros i. unfold kept, one_tile, in_pixel_cut. cbn. rewrite Z.eqb_refl. reflexivity. }
  assert (F : forall x, In x fs -> file_ok q x).
  { intros x Hx. apply in_map_iff in Hx as (i & <- & _). split; [cbn; repeat constructor; intros []|]. rewrite K. intros c [<-|[]]. exists (mkMem 1 0). cbn. auto. }
  destruct (consolidate_spec asort q fs HA F) as (cat & mem & num & A & _ & _ & P & M).
  { exists (one_tile 0). split; [left; reflexivity|]. rewrite K. discriminate. }
  assert (FR : forall x, In x fs -> of_a_run cells x).
  { intros x Hx. apply in_map_iff in Hx as (i & <- & _). exists (mkFL true true false), whole, [mkCL 1 [0]], 5%Q. eexists. eexists.
    split; [reflexivity|]. split; [intros c pf o H; apply in_map_iff in H as (y & <- & _); cbn; split; [lra|reflexivity]|].
    split; [repeat constructor; intros []|]. split; [vm_compute; reflexivity|]. repeat constructor. }
  exists q, fs, cat, mem. split; [unfold fs; rewrite map_length, seq_length; reflexivity|].
  split; [unfold fs; rewrite map_map; apply FinFun.Injective_map_NoDup; [intros x y; apply Nat2Z.inj|apply seq_NoDup]|].
  split; [auto|]. split; [exact A|]. split.
  - apply (NoDup_perm _ _ (Permutation.Permutation_map c_pos P)).
    assert (E : forall ks i, map c_pos (cats_from q all_kept num i (map one_tile ks)) = map Z.of_nat ks).
    { induction ks as [|k ks IH]; intros i; [reflexivity|]. cbn [map cats_from]. rewrite K. cbn [filter all_kept map app c_pos cwith]. f_equal. apply IH. }
    unfold fs. rewrite E. apply FinFun.Injective_map_NoDup; [intros x y; apply Nat2Z.inj|apply seq_NoDup].
  - rewrite M. unfold fs.
    assert (X : forall N s i, (share_of (file_rows cells (mems_from q all_kept num i (map one_tile (seq s N)))) 0 == inject_Z (Z.of_nat N))%Q); [|apply X].
    clear -K. induction N as [|N IH]; intros s i; [reflexivity|]. specialize (IH (S s) (S i)). cbn [seq map mems_from]. rewrite K.
    change (Spec.Consolidate.mem_of (filter all_kept [mkClus 1 (Z.of_nat s) 0 30 1 5 0 0]) (f_mem (one_tile s))) with [mkMem 1 0].
    cbn [map app]. unfold file_rows, share_of in *. cbn [map Qsum]. rewrite IH, Nat2Z.inj_succ. unfold Z.succ. rewrite inject_Z_plus.
    unfold cells. cbn [fst snd Nat.eqb]. change (inject_Z 1) with 1%Q. ring.
Qed.
Print Assumptions C181_tiles_refuted.
