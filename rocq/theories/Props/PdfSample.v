(** C117: random numbers from a tabulated density. *)
From Coq Require Import QArith Qround Lqa Lia.
From Verif.Base Require Import Py PyLemmas.
From Verif.Model Require Import PdfSample.
From Verif.Proofs Require Import PdfSample.
From Coq Require Import Lqa Lia List. Import ListNotations.
Local Open Scope Q_scope.

(** C117: every uniform deviate gives a sample, and one not above point i exactly for the deviates below a limit that lies between
    the cumulative probability of the points up to i and that plus one over the number of points. *)
Theorem C117_distribution : forall x pdf u, List.length x = List.length pdf -> Forall (fun p => 0 <= p) pdf -> 0 < Qsum pdf -> 0 <= u -> u < 1 ->
  exists k v, nth_error x k = Some v /\ sample x pdf u = Ok v /\
  forall i, (i < List.length pdf)%nat ->
    let n := inject_Z (Z.of_nat (List.length pdf)) in let cdf := Qsum (firstn (S i) pdf) / Qsum pdf in
    let limit := (inject_Z (Qfloor (cdf * n)) + 1) / n in
    ((k <= i)%nat <-> u < limit) /\ cdf < limit /\ limit <= cdf + 1 / n.
Proof.
  intros x pdf u Hx H P U0 U1. destruct (index_spec pdf u H P U0 U1) as (k & K & Kn & S).
  destruct (nth_error x k) as [v|] eqn:E; [|apply nth_error_None in E; lia]. exists k, v. split; [exact E|]. split; [unfold sample; rewrite K, E; reflexivity|].
  intros i Hi n cdf0 limit. assert (NE : pdf <> []) by (intros ->; cbn in P; lra). pose proof (NQ_pos pdf NE) as NP. change (NQ pdf) with n in NP.
  specialize (S i Hi). change (PdfSample.cdf pdf i) with cdf0 in S. change (NQ pdf) with n in S.
  pose proof (Qfloor_le (cdf0 * n)) as F1. pose proof (Qlt_floor (cdf0 * n)) as F2. rewrite inject_Z_plus in F2. change (inject_Z 1) with 1 in F2.
  pose proof (Qfloor_le (u * n)) as G1. pose proof (Qlt_floor (u * n)) as G2. rewrite inject_Z_plus in G2. change (inject_Z 1) with 1 in G2.
  split; [|split].
  - rewrite S. split; intros Q.
    + unfold limit. apply Qlt_shift_div_l; [exact NP|]. rewrite Zle_Qle in Q. lra.
    + assert (Q' : u * n < inject_Z (Qfloor (cdf0 * n)) + 1).
      { apply (Qmult_lt_r _ _ n NP) in Q. unfold limit in Q. setoid_replace ((inject_Z (Qfloor (cdf0 * n)) + 1) / n * n) with (inject_Z (Qfloor (cdf0 * n)) + 1) in Q by (field; lra). exact Q. }
      assert (L : inject_Z (Qfloor (u * n)) < inject_Z (Qfloor (cdf0 * n) + 1)) by (rewrite inject_Z_plus; change (inject_Z 1) with 1; lra). rewrite <- Zlt_Qlt in L. lia.
  - unfold limit. apply Qlt_shift_div_l; [exact NP|]. exact F2.
  - unfold limit. apply Qle_shift_div_r; [exact NP|]. setoid_replace ((cdf0 + 1 / n) * n) with (cdf0 * n + 1) by (field; lra). lra.
Qed.
Print Assumptions C117_distribution.
(** A point other than the first whose density is zero is never sampled. *)
Theorem C117_zero_partial : forall pdf u i, Forall (fun p => 0 <= p) pdf -> 0 < Qsum pdf -> 0 <= u -> u < 1 ->
  (i + 1 < List.length pdf)%nat -> nth (i + 1) pdf 1 == 0 -> sample_index pdf u <> Some (i + 1)%nat.
Proof.
  intros pdf u i H P U0 U1 Hi Z. destruct (index_spec pdf u H P U0 U1) as (k & K & Kn & S). rewrite K. intros [= ->].
  pose proof (S i ltac:(lia)) as A. pose proof (S (i + 1)%nat ltac:(lia)) as B.
  assert (E : cdf pdf (i + 1) == cdf pdf i).
  { unfold cdf. replace (Datatypes.S (i + 1)) with (Datatypes.S i + 1)%nat by lia.
    assert (F : Qsum (firstn (Datatypes.S i + 1) pdf) == Qsum (firstn (Datatypes.S i) pdf) + nth (i + 1) pdf 1).
    { clear -Hi. revert pdf Hi. induction i as [|i IH]; intros pdf Hi; destruct pdf as [|a [|b t]]; cbn in *; try lia; [lra|].
      specialize (IH (b :: t) ltac:(cbn; lia)). cbn in IH. rewrite Qplus_comm. rewrite IH. ring. }
    rewrite F, Z. unfold Qdiv. ring. }
  assert (Ef : Qfloor (cdf pdf (i + 1) * NQ pdf) = Qfloor (cdf pdf i * NQ pdf)) by (apply Qfloor_comp; rewrite E; reflexivity).
  rewrite Ef in B. assert ((i + 1 <= i)%nat) by (apply A, B; lia). lia.
Qed.
Print Assumptions C117_zero_partial.
(** Finding: the first point is sampled for the lowest 1/n of the deviates even if its density is zero; for the luminosity function
    of the centering calibration that is the brightest magnitude. *)
Theorem C117_first_refuted : forall x v t pdf u, x = v :: t -> List.length x = List.length pdf -> Forall (fun p => 0 <= p) pdf -> 0 < Qsum pdf ->
  0 <= u -> u < 1 / inject_Z (Z.of_nat (List.length pdf)) -> sample x pdf u = Ok v.
Proof.
  intros x v t pdf u -> Hx H P U0 U1. assert (NE : pdf <> []) by (intros ->; cbn in P; lra). pose proof (NQ_pos pdf NE) as NP. change (inject_Z (Z.of_nat (List.length pdf))) with (NQ pdf) in U1.
  assert (U : u * NQ pdf < 1) by (apply (Qmult_lt_r _ _ (NQ pdf) NP) in U1; setoid_replace (1 / NQ pdf * NQ pdf) with 1 in U1 by (field; lra); exact U1).
  assert (F : Qfloor (u * NQ pdf) = 0%Z).
  { pose proof (Qfloor_le (u * NQ pdf)). pose proof (Qlt_floor (u * NQ pdf)). assert (0 <= u * NQ pdf) by (apply Qmult_le_0_compat; lra).
    assert (inject_Z (Qfloor (u * NQ pdf)) < inject_Z 1) by (change (inject_Z 1) with 1; lra). assert (inject_Z 0 < inject_Z (Qfloor (u * NQ pdf) + 1)) by (change (inject_Z 0) with 0; lra).
    rewrite <- Zlt_Qlt in *. lia. }
  unfold sample, sample_index. change (inject_Z (Z.of_nat (List.length pdf))) with (NQ pdf). rewrite F. pose proof (cdfi_nth pdf 0 ltac:(destruct pdf; [congruence|cbn; lia])) as C.
  destruct (cdfi pdf) as [|c l]; [discriminate|]. cbn [nth_error] in C. assert (Ec : c = Qfloor (cdf pdf 0 * NQ pdf)) by congruence. rewrite Ec. clear C Ec. cbn [first_ge].
  assert (G : (0 <= Qfloor (cdf pdf 0 * NQ pdf))%Z).
  { change 0%Z with (Qfloor 0). apply Qfloor_resp_le. apply Qmult_le_0_compat; [|lra]. unfold cdf. apply Qle_shift_div_l; [exact P|]. rewrite Qmult_0_l. apply Qsum_nonneg.
    rewrite Forall_forall in *. intros y Hy. apply H. rewrite <- (firstn_skipn 1 pdf). apply in_or_app. left. exact Hy. }
  apply Z.leb_le in G. rewrite G. reflexivity.
Qed.
Print Assumptions C117_first_refuted.
Example C117_example : map (sample [1; 2; 3; 4] [0; 1; 0; 1]) [0; 1#4; 1#2; 3#4; 99#100] = map Ok [1; 2; 2; 4; 4].
Proof. reflexivity. Qed.
(** Without a density there is no sample: an IndexError. *)
Theorem C117_nothing_refuted x u : sample x [] u = Err IndexError.
Proof. reflexivity. Qed.
Print Assumptions C117_nothing_refuted.
