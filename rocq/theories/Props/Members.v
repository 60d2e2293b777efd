(** C52: the calibration members carry the redshift of their own cluster. *)
From Coq Require Import QArith Qabs String Permutation.
From Verif.Base Require Import Py PyLemmas Sort.
From Verif.Model Require Import Members.
From Verif.Spec Require Import Galfile Members.
From Verif.Proofs Require Import Galfile Chunks Consolidate Members.
From Coq Require Import Lqa Lia List.
Import ListNotations.
Local Open Scope nat_scope.
Local Open Scope list_scope.

(** The rows written are those of the members that pass the member cut and belong to a cluster that passes
    the cluster cuts, in the order of the member file.  Each carries the redshift of the mode and the
    cluster redshift of the cluster with its own identifier (to which the optional noise is added), and its
    own probabilities, photometry and central flag. *)
Theorem C52_rows f (cg : bool) cat mem noise out keep :
  prepare f (if cg then "cg" else "z_init")%string cat mem noise = Ok out ->
  (forall m, keep m = true <-> good_member f m /\ exists c, In c cat /\ good_cluster f cg c /\ c_id c = m_id m) ->
  exists owner : member -> cluster,
    length out = length (filter keep mem) /\
    forall k m r, nth_error (filter keep mem) k = Some m -> nth_error out k = Some r ->
      In (owner m) cat /\ good_cluster f cg (owner m) /\ c_id (owner m) = m_id m /\
      row_of cg (owner m) m (if Qlt_bool 0 (f_smooth f) then f_smooth f * noise k else 0)%Q r.
Proof.
  intros H K. change (if cg then "cg"%string else "z_init"%string) with (mode_name cg) in H. rewrite prepare_eq in H.
  destruct (eu_match _ _) as [ab|] eqn:E; [|discriminate]. cbn [bind] in H. injection H as <-.
  set (J := the_join f cg cat mem).
  set (CS := filter (ucl f cg) cat) in *. set (MS := filter (use_member f) mem) in *.
  assert (HK : map snd J = filter keep mem).
  { unfold J, the_join. fold CS MS.
    rewrite (join_snd c_id m_id CS (fun m => match partner c_id m_id CS m with Some _ => true | None => false end)).
    - unfold MS. rewrite filter_filter. apply filter_ext. intros m.
      destruct (keep m) eqn:Ek.
      + destruct (proj1 (K m) Ek) as (G & c & Hc & Gc & Ec). rewrite (proj2 (umem_iff f m) G). cbn.
        destruct (partner c_id m_id CS m) eqn:P; [reflexivity|]. exfalso.
        refine (partner_none c_id m_id CS m P c _ Ec). apply filter_In. split; [exact Hc|]. apply ucl_iff, Gc.
      + destruct (use_member f m) eqn:U; [|reflexivity]. cbn. destruct (partner c_id m_id CS m) as [c|] eqn:P; [|reflexivity].
        exfalso. destruct (partner_some _ _ _ _ _ P) as [Hc Ec]. apply filter_In in Hc.
        assert (keep m = true); [|congruence]. apply K. split; [apply umem_iff, U|]. exists c. split; [apply Hc|]. split; [apply ucl_iff, Hc|exact Ec].
    - intros m _. split.
      + destruct (partner c_id m_id CS m) as [c|] eqn:P; [|discriminate]. intros _. exists c. exact (partner_some _ _ _ _ _ P).
      + intros (c & Hc & Ec). destruct (partner c_id m_id CS m) eqn:P; [reflexivity|]. exfalso. exact (partner_none _ _ _ _ P c Hc Ec). }
  exists (fun m => match partner c_id m_id CS m with Some c => c | None => mk_cluster 0 0 0 0 0 0 0 end).
  split; [rewrite map_length, combine_length, seq_length, <- HK, map_length; apply Nat.min_id|].
  intros k m r Hm Hr. rewrite <- HK, nth_error_map in Hm.
  destruct (nth_error J k) as [[c m']|] eqn:EJ; [|discriminate]. cbn in Hm. injection Hm as ->.
  assert (HJ : In (c, m) J) by (eapply nth_error_In; exact EJ).
  assert (HP : partner c_id m_id CS m = Some c).
  { unfold J, the_join, join in HJ. fold CS MS in HJ. apply in_flat_map in HJ. destruct HJ as (x & _ & Hx).
    destruct (partner c_id m_id CS x) as [c'|] eqn:P; [|contradiction]. destruct Hx as [[= <- <-]|[]]. exact P. }
  rewrite HP. destruct (partner_some _ _ _ _ _ HP) as [Hc Ec]. apply filter_In in Hc.
  split; [apply Hc|]. split; [apply ucl_iff, Hc|]. split; [exact Ec|].
  rewrite nth_error_map in Hr.
  assert (EC : nth_error (combine J (seq 0 (length J))) k = Some ((c, m), k)).
  { assert (L : k < length J) by (apply nth_error_Some; congruence).
    rewrite (nth_error_nth' _ ((c, m), k)) by (rewrite combine_length, seq_length; lia). f_equal.
    rewrite combine_nth by (rewrite seq_length; reflexivity). rewrite seq_nth by lia.
    rewrite (nth_error_nth _ _ (c, m) EJ). reflexivity. }
  fold J in Hr. rewrite EC in Hr. cbn [option_map fst snd out_row] in Hr. injection Hr as <-.
  unfold row_of. cbn [o_z o_zl o_p o_pcol o_central o_phot]. rewrite Qlt_bool_iff.
  repeat split; try reflexivity; try tauto. destruct (Qlt_bool 0 (f_smooth f)); [reflexivity|ring].
Qed.
Print Assumptions C52_rows.

(** The cluster of a row is the only one of its identifier among those kept. *)
Theorem C52_one_owner f (cg : bool) cat mem noise out c1 c2 :
  prepare f (if cg then "cg" else "z_init")%string cat mem noise = Ok out ->
  In c1 cat -> In c2 cat -> good_cluster f cg c1 -> good_cluster f cg c2 -> c_id c1 = c_id c2 -> c1 = c2.
Proof.
  intros H I1 I2 G1 G2 E. change (if cg then "cg"%string else "z_init"%string) with (mode_name cg) in H. rewrite prepare_eq in H.
  destruct (eu_match _ _) as [ab|] eqn:EM; [|discriminate]. unfold eu_match in EM. destruct (_ || _); [discriminate|].
  destruct (nodupZ _) eqn:N; [|discriminate]. apply nodupZ_iff in N.
  assert (J1 : In c1 (filter (ucl f cg) cat)) by (apply filter_In; split; [exact I1|apply ucl_iff, G1]).
  assert (J2 : In c2 (filter (ucl f cg) cat)) by (apply filter_In; split; [exact I2|apply ucl_iff, G2]).
  revert N J1 J2. generalize (filter (ucl f cg) cat). intros l. clear - E. induction l as [|x l IH]; [contradiction|]. cbn. intros N.
  inversion N as [|y l' H1 H2]; subst. intros [->|J1] [->|J2]; auto.
  - exfalso. apply H1. rewrite E. apply in_map, J2.
  - exfalso. apply H1. rewrite <- E. apply in_map, J1.
Qed.
Print Assumptions C52_one_owner.

(** The preparation succeeds when the kept clusters have different identifiers and there is at least one
    of them and one kept member. *)
Theorem C52_succeeds f (cg : bool) cat mem noise c m :
  NoDup (map c_id cat) -> In c cat -> good_cluster f cg c -> In m mem -> good_member f m ->
  exists out, prepare f (if cg then "cg" else "z_init")%string cat mem noise = Ok out.
Proof.
  intros N Ic Gc Im Gm. change (if cg then "cg"%string else "z_init"%string) with (mode_name cg). rewrite prepare_eq.
  destruct (eu_match_ok (map c_id (filter (ucl f cg) cat)) (map m_id (filter (use_member f) mem))) as [ab E].
  - intros H. apply map_eq_nil in H. assert (I : In c (filter (ucl f cg) cat)) by (apply filter_In; split; [exact Ic|apply ucl_iff, Gc]). rewrite H in I. contradiction.
  - intros H. apply map_eq_nil in H. assert (I : In m (filter (use_member f) mem)) by (apply filter_In; split; [exact Im|apply umem_iff, Gm]). rewrite H in I. contradiction.
  - apply NoDup_map_filter, N.
  - rewrite E. cbn [bind]. eauto.
Qed.
Print Assumptions C52_succeeds.
(** Any mode other than the two is refused. *)
Theorem C52_mode f mode cat mem noise :
  mode <> "z_init"%string -> mode <> "cg"%string -> prepare f mode cat mem noise = Err RuntimeError.
Proof.
  intros H1 H2. unfold prepare, mode_z. rewrite (proj2 (String.eqb_neq _ _) H1), (proj2 (String.eqb_neq _ _) H2). reflexivity.
Qed.
Print Assumptions C52_mode.
(** When no cluster or no member passes the cuts nothing is written: the matching stops with ValueError. *)
Theorem C52_nothing_kept f (cg : bool) cat mem noise :
  (forall c, In c cat -> ~ good_cluster f cg c) \/ (forall m, In m mem -> ~ good_member f m) ->
  prepare f (if cg then "cg" else "z_init")%string cat mem noise = Err ValueError.
Proof.
  intros H. change (if cg then "cg"%string else "z_init"%string) with (mode_name cg). rewrite prepare_eq.
  destruct (eu_match_shape (map c_id (filter (ucl f cg) cat)) (map m_id (filter (use_member f) mem))) as (r & E & _ & HE).
  rewrite E, HE; [reflexivity|]. destruct H as [H|H].
  - left. rewrite (proj2 (filter_nil_none _ _)); [reflexivity|]. intros c Hc. destruct (ucl f cg c) eqn:U; [|reflexivity].
    exfalso. apply (H c Hc), ucl_iff, U.
  - right. left. rewrite (proj2 (filter_nil_none _ _)); [reflexivity|]. intros m Hm. destruct (use_member f m) eqn:U; [|reflexivity].
    exfalso. apply (H m Hm), umem_iff, U.
Qed.
Print Assumptions C52_nothing_kept.
Example C52_ex :
  prepare (mk_conf 5 3 (1#2) 0) "z_init"
    [mk_cluster 7 10 1 (2#10) (3#10) (21#100) (1#100); mk_cluster 9 20 2 (4#10) (4#10) (4#10) (1#100); mk_cluster 8 4 1 (2#10) (2#10) (2#10) (1#100)]
    [mk_member 9 (9#10) 1 1 0 (1#2) 100; mk_member 8 1 1 1 1 0 101; mk_member 7 (1#10) 1 1 (8#10) 0 102; mk_member 7 (1#10) 1 1 0 1 103] (fun _ => 0%Q)
  = Ok [mk_row (4#10) (4#10) (9#10) 0 false 100; mk_row (2#10) (21#100) (1#10) (8#10) true 102].
Proof. vm_compute. reflexivity. Qed.
