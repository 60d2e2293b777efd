(** Lemmas for Props/ZCal.v. *)
From Coq Require Import Reals Lra.
From Verif.Base Require Import Py.
From Verif.Model Require Import ZCorr ZCal.
From Verif.Spec Require Import ZCal.
From Coq Require Import Lia List. Import ListNotations.
Local Open Scope R_scope.

Lemma scatter2_pos pivot cols : forall lam z, 0 <= scatter2 pivot cols lam z.
Proof. induction cols as [|k t IH]; intros lam z; cbn [scatter2]; [lra|]. pose proof (IH lam (z + (k_off k z + k_slope k z * ln (lam / pivot)))). pose proof (pow2_ge_0 (Rmax (k_scat k z) (1 / 1000))). lra. Qed.
Lemma sqrt_e e : 0 <= e -> sqrt (e ^ 2 + 0) = e.
Proof. intros H. rewrite Rplus_0_r. apply sqrt_pow2, H. Qed.

(** the columns of the application from i on *)
Fixpoint colsfrom (cols : list col) (i left : nat) : list col := match left with O => [] | S l => nth i cols zero_col :: colsfrom cols (S i) l end.
Lemma corr_from_eq pivot n cols lam : forall left i z e, 0 <= e ->
  corr_from (fun _ _ => 1) (corr_of pivot n cols lam) false i left (z, e, None) =
  Ok (corrected_z pivot (colsfrom cols i left) lam z, sqrt (e ^ 2 + scatter2 pivot (colsfrom cols i left) lam z), None).
Proof.
  induction left as [|l IH]; intros i z e He; [cbn; rewrite Rmult_1_r; rewrite <- (sqrt_e e He) at 1; do 4 f_equal; ring|].
  cbn [corr_from corr_step colsfrom corrected_z scatter2 bind corr_of c_xe c_dz]. rewrite IH by apply sqrt_pos.
  do 3 f_equal. f_equal. rewrite pow2_sqrt; [ring|]. pose proof (pow2_ge_0 e). pose proof (pow2_ge_0 (Rmax (k_scat (nth i cols zero_col) z) (1 / 1000))). lra.
Qed.
Lemma colsfrom_eq cols : forall left i, (i <= List.length cols)%nat -> (List.length cols <= i + left)%nat ->
  colsfrom cols i left = skipn i cols ++ repeat zero_col (i + left - List.length cols).
Proof.
  induction left as [|l IH]; intros i H1 H2; cbn [colsfrom].
  - replace i with (List.length cols) by lia. rewrite skipn_all. replace (_ - _)%nat with 0%nat by lia. reflexivity.
  - destruct (Nat.eq_dec i (List.length cols)) as [->|N].
    + rewrite nth_overflow by lia. rewrite skipn_all. replace (_ + S l - _)%nat with (S l) by lia. cbn [repeat app]. f_equal.
      assert (G : forall m j, (List.length cols <= j)%nat -> colsfrom cols j m = repeat zero_col m).
      { induction m as [|m IHm]; intros j Hj; [reflexivity|]. cbn. rewrite nth_overflow by lia. rewrite IHm by lia. reflexivity. }
      apply G. lia.
    + rewrite IH by lia. replace (S i + l)%nat with (i + S l)%nat by lia. destruct (nth_error cols i) as [k|] eqn:E; [|apply nth_error_None in E; lia].
      rewrite (nth_error_nth _ _ zero_col E). clear -E. revert i E. induction cols as [|c t IHt]; intros [|i] E; try discriminate; cbn in *; [injection E as ->; reflexivity|].
      specialize (IHt i E). rewrite <- plus_n_Sm in *. exact IHt.
Qed.
Lemma corrected_zero pivot m lam : forall z, corrected_z pivot (repeat zero_col m) lam z = z.
Proof. induction m as [|m IH]; intros z; cbn; [reflexivity|]. rewrite IH. ring. Qed.
Lemma scatter_zero pivot m lam : forall z, scatter2 pivot (repeat zero_col m) lam z = INR m * (1 / 1000) ^ 2.
Proof.
  induction m as [|m IH]; intros z; [cbn; ring|]. cbn [repeat scatter2]. rewrite IH, S_INR. unfold zero_col. cbn [k_scat]. rewrite Rmax_right by lra. ring.
Qed.
Lemma corrected_app pivot a b lam : forall z, corrected_z pivot (a ++ b) lam z = corrected_z pivot b lam (corrected_z pivot a lam z).
Proof. induction a as [|k t IH]; intros z; cbn; [reflexivity|]. apply IH. Qed.
Lemma scatter_app pivot a b lam : forall z, scatter2 pivot (a ++ b) lam z = scatter2 pivot a lam z + scatter2 pivot b lam (corrected_z pivot a lam z).
Proof. induction a as [|k t IH]; intros z; cbn; [ring|]. rewrite IH. ring. Qed.
Lemma correct_eq pivot n cols c : 0 <= zc_e c -> (List.length cols <= n)%nat ->
  correct_cl pivot n cols c = mkZC (zc_lam c) (zc_scale c) (zc_spec c) (corrected_z pivot cols (zc_lam c) (zc_zl c))
     (sqrt (zc_e c ^ 2 + scatter2 pivot cols (zc_lam c) (zc_zl c) + INR (n - List.length cols) * (1 / 1000) ^ 2)).
Proof.
  intros He Hn. unfold correct_cl, apply_correction. change (c_niter (corr_of pivot n cols (zc_lam c))) with n.
  rewrite corr_from_eq by exact He. rewrite colsfrom_eq by lia. cbn [skipn Nat.add]. rewrite corrected_app, scatter_app, corrected_zero, scatter_zero.
  f_equal. f_equal. ring.
Qed.
Lemma calib_out pivot n fit orig : forall left cols cat tr out last, calib_from pivot n fit orig left cols cat = (tr, out, last) ->
  List.length tr = left /\ List.length out = (List.length cols + left)%nat /\ firstn (List.length cols) out = cols.
Proof.
  induction left as [|l IH]; intros cols cat tr out last H; cbn in H.
  - injection H as <- <- <-. repeat split; [lia|apply firstn_all].
  - destruct (calib_from pivot n fit orig l (cols ++ [fit cat]) _) as [[tr' out'] last'] eqn:E. injection H as <- <- <-. destruct (IH _ _ _ _ _ E) as (A & B & C).
    rewrite app_length in B, C. cbn [List.length] in *. repeat split; [lia|lia|].
    apply (f_equal (firstn (List.length cols))) in C. rewrite firstn_firstn in C. replace (Nat.min _ _) with (List.length cols) in C by lia.
    rewrite C, firstn_app, Nat.sub_diag, firstn_O, app_nil_r. apply firstn_all.
Qed.
Lemma calib_trace pivot n fit orig : forall left cols cat tr out last, calib_from pivot n fit orig left cols cat = (tr, out, last) ->
  (forall k ct, nth_error tr k = Some ct -> nth_error out (List.length cols + k) = Some (fit ct)) /\
  (forall k ct, nth_error tr (S k) = Some ct -> ct = map (correct_cl pivot n (firstn (List.length cols + S k) out)) orig) /\
  (forall ct, nth_error tr 0 = Some ct -> ct = cat) /\
  (left <> 0%nat -> last = map (correct_cl pivot n out) orig).
Proof.
  induction left as [|l IH]; intros cols cat tr out last H; cbn in H.
  - injection H as <- <- <-. split; [intros [|k] ct H; discriminate|]. split; [intros k ct H; discriminate|]. split; [intros ct H; discriminate|congruence].
  - destruct (calib_from pivot n fit orig l (cols ++ [fit cat]) _) as [[tr' out'] last'] eqn:E. injection H as <- <- <-. pose proof (calib_out _ _ _ _ _ _ _ _ _ _ E) as (L1 & L2 & L3). destruct (IH _ _ _ _ _ E) as (A & B & C & D).
    rewrite app_length in *. cbn [List.length] in *. repeat split.
    + intros [|k] ct H; cbn in H.
      * injection H as <-. rewrite Nat.add_0_r. assert (Q : nth_error (firstn (List.length cols + 1) out') (List.length cols) = Some (fit cat)) by (rewrite L3, nth_error_app2, Nat.sub_diag by lia; reflexivity).
        rewrite <- Q. symmetry. clear. remember (List.length cols) as m. clear Heqm. revert m. induction out' as [|o t IHo]; intros [|m]; cbn; try reflexivity. apply IHo.
      * rewrite <- (A k ct H). f_equal. lia.
    + intros k ct H. cbn in H. destruct k as [|k]; [rewrite (C ct H), L3; reflexivity|]. rewrite (B k ct H). replace (List.length cols + 1 + S k)%nat with (List.length cols + S (S k))%nat by lia. reflexivity.
    + intros ct H. cbn in H. injection H as <-. reflexivity.
    + intros _. destruct l as [|l]; [|apply D; lia]. cbn in E. injection E as <- <- <-. reflexivity.
Qed.
