From Coq Require Import Reals Lra.
From Verif.Base Require Import Py PyLemmas.
From Verif.Model Require Import BkgGen.
From Verif.Spec Require Import BkgGen.
Local Open Scope R_scope.

Lemma Rltb_iff x y : Rltb x y = true <-> x < y.
Proof. unfold Rltb. destruct (Rlt_dec x y); split; intros; [assumption|reflexivity|discriminate|contradiction]. Qed.

Section E.
  Variables (zmin zmax : R) (nproc : nat).
  Hypothesis Hz : 1/1000 < zmin. Hypothesis Hm : zmin < zmax. Hypothesis Hn : (0 < nproc)%nat.
  Local Notation edge := (zedge zmin zmax nproc).
  Lemma edge_first : edge 0 = zmax + 1/1000.
  Proof. unfold zedge. cbn [INR]. rewrite Rmult_0_l, Rplus_0_r, !exp_ln by lra. lra. Qed.
  Lemma edge_last : edge nproc = zmin - 1/1000.
  Proof.
    unfold zedge. assert (INR nproc <> 0) by (apply not_0_INR; lia).
    replace (ln (zmin - 1/1000) + INR nproc * ((ln (zmax + 1/1000) - ln (zmin - 1/1000)) / INR nproc))
      with (ln (zmax + 1/1000)) by (field; assumption).
    rewrite !exp_ln by lra. lra.
  Qed.
  Lemma edge_decr i : edge (S i) < edge i.
  Proof.
    unfold zedge. assert (0 < INR nproc) by (apply lt_0_INR; exact Hn).
    assert (Hl : ln (zmin - 1/1000) < ln (zmax + 1/1000)) by (apply ln_increasing; lra).
    assert (0 < (ln (zmax + 1/1000) - ln (zmin - 1/1000)) / INR nproc).
    { apply Rdiv_lt_0_compat; lra. }
    enough (exp (ln (zmin - 1/1000) + INR i * ((ln (zmax + 1/1000) - ln (zmin - 1/1000)) / INR nproc))
            < exp (ln (zmin - 1/1000) + INR (S i) * ((ln (zmax + 1/1000) - ln (zmin - 1/1000)) / INR nproc))) by lra.
    apply exp_increasing. rewrite S_INR. nra.
  Qed.
  Lemma edge_mono i k : edge (i + k) <= edge i.
  Proof.
    induction k as [|k IH]; [rewrite Nat.add_0_r; lra|].
    rewrite Nat.add_succ_r. pose proof (edge_decr (i + k)). lra.
  Qed.
  Lemma edge_le i j : (i <= j)%nat -> edge j <= edge i.
  Proof. intros H. replace j with (i + (j - i))%nat by lia. apply edge_mono. Qed.

  Lemma worker_bins_In bins i j : In j (worker_bins zmin zmax nproc bins i) <->
    exists z, nth_error bins j = Some z /\ edge (S i) < z < edge i.
  Proof.
    unfold worker_bins. rewrite np_where_spec. split; intros (z & Hj & H); exists z; (split; [exact Hj|]).
    - apply andb_prop in H. rewrite !Rltb_iff in H. lra.
    - rewrite andb_true_iff, !Rltb_iff. lra.
  Qed.

  Lemma edges_cover z k : edge k < z -> z < edge 0 -> (forall i, (0 < i < k)%nat -> z <> edge i) ->
    exists i, (i < k)%nat /\ edge (S i) < z < edge i.
  Proof.
    induction k as [|k IH]; intros H1 H2 H3; [lra|].
    destruct (Rlt_dec z (edge k)) as [H|H]; [exists k; split; [lia|lra]|].
    destruct (Nat.eq_dec k 0) as [->|Hk]; [contradiction|].
    destruct IH as (i & Hi & Hb); [|exact H2|intros; apply H3; lia|exists i; split; [lia|exact Hb]].
    assert (z <> edge k) by (apply H3; lia). lra.
  Qed.
  Lemma edges_unique z i j : edge (S i) < z < edge i -> edge (S j) < z < edge j -> i = j.
  Proof.
    intros Hi Hj. destruct (Nat.lt_trichotomy i j) as [H|[H|H]]; [|exact H|].
    - pose proof (edge_le (S i) j ltac:(lia)). lra.
    - pose proof (edge_le (S j) i ltac:(lia)). lra.
  Qed.

  Lemma concat_filter_nonempty (ws : list (list nat)) :
    List.concat (filter (fun l => negb (Nat.eqb (List.length l) 0)) ws) = List.concat ws.
  Proof.
    induction ws as [|w ws IH]; [reflexivity|]. cbn [filter List.concat].
    destruct w as [|x w]; cbn; [exact IH|]. rewrite IH. reflexivity.
  Qed.

  Lemma bins_once bins :
    (forall z, In z bins -> zmin <= z <= zmax) ->
    (forall z i, In z bins -> (0 < i < nproc)%nat -> z <> edge i) ->
    each_once (worker_list zmin zmax nproc bins) (List.length bins).
  Proof.
    intros Hr Hi. unfold worker_list, each_once. rewrite concat_filter_nonempty. split.
    - apply NoDup_concat_map; [apply seq_NoDup|intros; apply np_where_NoDup|].
      intros i j x _ _ Hx Hy. apply worker_bins_In in Hx, Hy. destruct Hx as (z & Hz1 & Hb1), Hy as (z' & Hz2 & Hb2).
      rewrite Hz1 in Hz2. injection Hz2 as <-. eapply edges_unique; eauto.
    - intros j. split.
      + intros H. apply in_concat in H. destruct H as (c & Hc & Hx). apply in_map_iff in Hc.
        destruct Hc as (i & <- & _). apply worker_bins_In in Hx. destruct Hx as (z & Hzj & _).
        apply nth_error_Some. congruence.
      + intros H. destruct (nth_error bins j) as [z|] eqn:E; [|apply nth_error_None in E; lia].
        pose proof (nth_error_In _ _ E) as Hin. specialize (Hr z Hin).
        destruct (edges_cover z nproc) as (i & Hlt & Hb).
        { rewrite edge_last. lra. } { rewrite edge_first. lra. } { intros i H1. apply Hi; assumption. }
        apply in_concat. exists (worker_bins zmin zmax nproc bins i). split; [|apply worker_bins_In; exists z; auto].
        apply in_map, in_seq. lia.
  Qed.
End E.

(** zrange = (0.101, 0.399), bin size 0.199, two workers: the bin at 0.3 is on the middle edge. *)
Lemma middle_edge : zedge (101/1000) (399/1000) 2 1 = 3/10.
Proof.
  unfold zedge. cbn [INR].
  replace (101/1000 - 1/1000) with (1/10) by lra. replace (399/1000 + 1/1000) with (2 * 2 * (1/10)) by lra.
  replace (ln (1/10) + 1 * ((ln (2 * 2 * (1/10)) - ln (1/10)) / (1 + 1))) with (ln (2 * (1/10))).
  - rewrite !exp_ln by lra. lra.
  - rewrite !ln_mult by lra. lra.
Qed.
Lemma bins_missed : 
  zbins (101/1000) (199/1000) 2 = [101/1000; 3/10] /\
  ~ In 1%nat (List.concat (worker_list (101/1000) (399/1000) 2 (zbins (101/1000) (199/1000) 2))).
Proof.
  assert (Hb : zbins (101/1000) (199/1000) 2 = [101/1000; 3/10]).
  { unfold zbins. cbn. f_equal; [lra|]. f_equal. lra. }
  split; [exact Hb|]. rewrite Hb. unfold worker_list. rewrite concat_filter_nonempty. intros H.
  apply in_concat in H. destruct H as (c & Hc & Hx). apply in_map_iff in Hc.
  destruct Hc as (i & <- & Hi). apply worker_bins_In in Hx. destruct Hx as (z & Hz & Hlt).
  cbn in Hz. injection Hz as <-. apply in_seq in Hi. destruct i as [|[|i]]; [| |lia];
  rewrite middle_edge in Hlt; lra.
Qed.
