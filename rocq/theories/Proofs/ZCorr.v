(** Proofs about the redshift correction. *)
From Coq Require Import Reals Lra.
From Verif.Base Require Import Py PyLemmas.
From Verif.Model Require Import ZCorr.
From Verif.Spec Require Import ZCorr.
Local Open Scope R_scope.

Lemma sqrt_ge e x : e <= sqrt (e ^ 2 + x ^ 2).
Proof.
  destruct (Rle_dec e 0) as [H|H]; [pose proof (sqrt_pos (e ^ 2 + x ^ 2)); lra|].
  rewrite <- (sqrt_Rsqr e) at 1 by lra. apply sqrt_le_1_alt. unfold Rsqr. nra.
Qed.
Lemma sqrt_gt e x : x <> 0 -> e < sqrt (e ^ 2 + x ^ 2).
Proof.
  intros Hx. assert (0 < x ^ 2) by (destruct (Rtotal_order x 0) as [?|[?|?]]; [nra|congruence|nra]).
  destruct (Rlt_dec e 0) as [H'|H']; [pose proof (sqrt_pos (e ^ 2 + x ^ 2)); lra|].
  rewrite <- (sqrt_Rsqr e) at 1 by lra. apply sqrt_lt_1_alt. unfold Rsqr. nra.
Qed.
Definition err3 (s : R * R * option pdist) : R := snd (fst s).
Lemma step_err simps c ne i s s' : corr_step simps c ne i s = Ok s' -> err3 s <= err3 s'.
Proof.
  destruct s as [[z e] [pd|]]; unfold corr_step; cbv zeta.
  - destruct (pz_step _ _ _ _ _ pd); [|discriminate]. cbn [bind]. intros H. apply (f_equal (fun r => match r with Ok a => err3 a | _ => 0 end)) in H.
    unfold err3 in *. cbn in *. rewrite <- H. apply sqrt_ge.
  - destruct ne; [discriminate|]. intros H. apply (f_equal (fun r => match r with Ok a => err3 a | _ => 0 end)) in H.
    unfold err3 in *. cbn in *. rewrite <- H. apply sqrt_ge.
Qed.
Lemma from_err simps c ne left : forall i s s', corr_from simps c ne i left s = Ok s' -> err3 s <= err3 s'.
Proof.
  induction left as [|l IH]; intros i s s'; cbn [corr_from]; [intros [= <-]; lra|].
  destruct (corr_step simps c ne i s) as [s1|] eqn:E; [|discriminate]. cbn [bind]. intros H. apply step_err in E. apply IH in H. lra.
Qed.

(** a p(z) step keeps a proper distribution *)
Lemma nth_seq_map {A} (f : nat -> A) n i x : nth_error (map f (seq 0 n)) i = Some x -> (i < n)%nat /\ x = f i.
Proof.
  intros H. rewrite nth_error_map in H. destruct (nth_error (seq 0 n) i) as [k|] eqn:E; [|discriminate]. injection H as <-.
  assert (Hi : (i < n)%nat) by (rewrite <- (seq_length n 0); apply nth_error_Some; congruence). split; [exact Hi|].
  apply (nth_error_nth _ _ 0%nat) in E. rewrite seq_nth in E by exact Hi. cbn in E. congruence.
Qed.
Lemma pz_step_ok simps z z' e x bins vals h : rhomogeneous simps -> 0 < e -> List.length vals = List.length bins ->
  (2 <= List.length bins)%nat -> runiform (List.length bins) h bins -> positive_mass simps vals ->
  exists bins' k, pz_step simps z z' e x (bins, vals) = Ok (bins', map (fun v => v / k) vals) /\ 0 < k /\
    List.length bins' = List.length bins /\ runiform (List.length bins) (h * sqrt (x ^ 2 + e ^ 2) / e) bins' /\
    simps (map (fun v => v / k) vals) bins' = 1 /\
    (forall m d, List.length bins = (2 * m + 1)%nat -> middle_at z d bins -> middle_at z' d bins').
Proof.
  intros HS He Hl Hn (Hh & _ & a & Hu) Hm. unfold pz_step. set (n := List.length bins) in *. cbv zeta.
  assert (Hdiv : (Nat.div (n - 1) 2 < n)%nat) by (pose proof (Nat.div_le_upper_bound (n - 1) 2 (n - 1)); lia).
  destruct (nth_error bins (Nat.div (n - 1) 2)) as [m|] eqn:Em; [|apply nth_error_None in Em; fold n in Em; lia].
  destruct (nth_error bins 1) as [b1|] eqn:E1; [|apply nth_error_None in E1; fold n in E1; lia].
  destruct (nth_error bins 0) as [b0|] eqn:E0; [|apply nth_error_None in E0; fold n in E0; lia].
  assert (Hb : b1 - b0 = h) by (rewrite (Hu _ _ E1), (Hu _ _ E0); cbn; ring).
  set (pdz := (b1 - b0) * sqrt (x ^ 2 + e ^ 2) / e).
  assert (Hs : 0 < sqrt (x ^ 2 + e ^ 2)) by (apply sqrt_lt_R0; nra).
  assert (Hp : 0 < pdz). { unfold pdz. rewrite Hb. apply Rmult_lt_0_compat; [nra|]. apply Rinv_0_lt_compat, He. }
  set (bins' := map (fun i => pdz * INR i + z' - pdz * (INR n - 1) / 2 + (m - z)) (seq 0 n)).
  assert (U : runiform n pdz bins').
  { split; [exact Hp|]. split; [unfold bins'; rewrite map_length, seq_length; reflexivity|].
    exists (z' - pdz * (INR n - 1) / 2 + (m - z)). intros i y Hy. apply nth_seq_map in Hy. destruct Hy as [_ ->]. ring. }
  assert (U' := U). rewrite <- Hl in U'. apply Hm in U'.
  exists bins', (simps vals bins'). split; [reflexivity|]. split; [exact U'|]. split; [apply U|]. split; [unfold pdz in U; rewrite Hb in U; exact U|].
  split; [rewrite HS; field; lra|].
  intros k d Hk Hmid. unfold middle_at in *. fold n in Hmid. rewrite Em in Hmid. injection Hmid as ->.
  assert (Lb : List.length bins' = n) by apply U. rewrite Lb. replace (Nat.div (n - 1) 2) with k in * by (rewrite Hk; replace (2 * k + 1 - 1)%nat with (k * 2)%nat by lia; rewrite Nat.div_mul; lia).
  unfold bins'. rewrite nth_error_map.
  rewrite nth_error_nth' with (d := 0%nat) by (rewrite seq_length; lia). rewrite seq_nth by lia. cbn [option_map Nat.add]. f_equal.
  rewrite Hk, plus_INR, mult_INR. cbn [INR]. field.
Qed.
Lemma mass_scale simps vals k : rhomogeneous simps -> 0 < k -> positive_mass simps vals -> positive_mass simps (map (fun v => v / k) vals).
Proof.
  intros HS Hk H h g U. rewrite map_length in U. rewrite HS. apply Rmult_lt_0_compat; [apply (H h g U)|]. apply Rinv_0_lt_compat, Hk.
Qed.

Lemma from_pz simps c ne left : forall i z e bins vals h, rhomogeneous simps -> 0 < e -> List.length vals = List.length bins ->
  (2 <= List.length bins)%nat -> runiform (List.length bins) h bins -> positive_mass simps vals ->
  exists z' e' bins' vals' k, corr_from simps c ne i left (z, e, Some (bins, vals)) = Ok (z', e', Some (bins', vals')) /\
    0 < k /\ (left = 0%nat -> k = 1) /\ vals' = map (fun v => v / k) vals /\ List.length bins' = List.length bins /\
    (exists h', h <= h' /\ runiform (List.length bins) h' bins') /\ e <= e' /\
    (left <> 0%nat -> simps vals' bins' = 1) /\
    (forall m d, List.length bins = (2 * m + 1)%nat -> middle_at z d bins -> middle_at z' d bins').
Proof.
  induction left as [|l IH]; intros i z e bins vals h HS He Hl Hn U Hm.
  - exists z, e, bins, vals, 1. cbn [corr_from]. split; [reflexivity|]. split; [lra|]. split; [reflexivity|].
    split; [symmetry; rewrite <- (map_id vals) at 2; apply map_ext; intros; field|]. split; [reflexivity|].
    split; [exists h; split; [lra|exact U]|]. split; [lra|]. split; [congruence|auto].
  - cbn [corr_from]. unfold corr_step. cbv zeta. set (x := c_xe c i z). set (z1 := z + c_dz c i z).
    destruct (pz_step_ok simps z z1 e x bins vals h HS He Hl Hn U Hm) as (b1 & k1 & E & Hk1 & L1 & U1 & S1 & M1).
    rewrite E. cbn [bind]. pose proof (sqrt_ge e x) as He1.
    assert (Hh : h <= h * sqrt (x ^ 2 + e ^ 2) / e).
    { destruct U as [Hh _]. rewrite (Rplus_comm (x ^ 2)). assert (1 <= sqrt (e ^ 2 + x ^ 2) / e).
      { apply (Rmult_le_reg_r e); [exact He|]. unfold Rdiv. rewrite Rmult_assoc, Rinv_l by lra. lra. }
      replace (h * sqrt (e ^ 2 + x ^ 2) / e) with (h * (sqrt (e ^ 2 + x ^ 2) / e)) by (field; lra). nra. }
    assert (Lm : List.length (map (fun v => v / k1) vals) = List.length b1) by (rewrite map_length; lia).
    destruct (IH (S i) z1 (sqrt (e ^ 2 + x ^ 2)) b1 (map (fun v => v / k1) vals) _ HS ltac:(lra) Lm ltac:(lia)
                (eq_ind_r (fun n => runiform n _ b1) U1 L1) (mass_scale simps vals k1 HS Hk1 Hm))
      as (z' & e' & b' & v' & k & E' & Hk & Hk0 & Hv & Lb & (h' & Hh' & U') & He' & S' & M').
    exists z', e', b', v', (k1 * k). split; [exact E'|]. split; [nra|]. split; [discriminate|].
    split; [rewrite Hv, map_map; apply map_ext; intros v; field; lra|]. split; [lia|].
    split; [exists h'; split; [lra|rewrite <- L1; exact U']|]. split; [lra|]. split.
    + intros _. destruct l as [|l]; [|apply S'; discriminate]. cbn [corr_from] in E'. 
      apply (f_equal (fun r => match r with Ok (_, _, Some p) => p | _ => ([], []) end)) in E'. injection E' as <- <-. exact S1.
    + intros m d Hm' Hd. apply (M' m d); [lia|]. apply (M1 m d Hm' Hd).
Qed.

Lemma from_nopz simps c left : forall i z e, exists z' e', corr_from simps c false i left (z, e, None) = Ok (z', e', None).
Proof.
  induction left as [|l IH]; intros i z e; cbn [corr_from]; [eauto|]. unfold corr_step. cbv zeta. cbn [bind]. apply IH.
Qed.
