(** Proofs about search radii and depths. *)
From Coq Require Import Reals Lra Lia.
From Verif.Base Require Import Py.
From Verif.Model Require Import BkgGen Radii.
Local Open Scope R_scope.

Lemma Rltb_iff a b : Rltb a b = true <-> a < b.
Proof. unfold Rltb. destruct (Rlt_dec a b); split; intros; try lra; congruence. Qed.
Lemma Rltb_not a b : Rltb a b = false <-> b <= a.
Proof. unfold Rltb. destruct (Rlt_dec a b); split; intros; try lra; congruence. Qed.
Ltac rb := repeat match goal with
  | H : Rltb _ _ = true |- _ => apply Rltb_iff in H
  | H : Rltb _ _ = false |- _ => apply Rltb_not in H end.
Ltac rcase a b := let E := fresh "E" in destruct (Rltb a b) eqn:E; [apply Rltb_iff in E|apply Rltb_not in E].

Lemma pow_le x y b : 0 < x -> x <= y -> 0 <= b -> Rpower x b <= Rpower y b.
Proof. intros Hx Hy Hb. apply Rle_Rpower_l; lra. Qed.
Lemma pow_lt x y b : 0 < x -> x < y -> 0 < b -> Rpower x b < Rpower y b.
Proof.
  intros Hx Hy Hb. unfold Rpower. apply exp_increasing. apply Rmult_lt_compat_l; [exact Hb|]. apply ln_increasing; lra.
Qed.
Lemma pow_pos x b : 0 < Rpower x b.
Proof. apply exp_pos. Qed.
Lemma pow_one x : 0 < x -> Rpower x 0 = 1.
Proof. intros. apply Rpower_O. exact H. Qed.
Lemma one_pow b : Rpower 1 b = 1.
Proof. unfold Rpower. rewrite ln_1, Rmult_0_r. apply exp_0. Qed.

(** the pieces of the radius *)
Lemma setup_max s ra : setup s = Ok ra ->
  ra_m0 ra = (if st_use_rmask s then st_prm0 s else st_r0 s) /\ ra_mb ra = (if st_use_rmask s then st_prmb s else st_beta s) /\
  (st_beta s = 0 -> 12/10 * st_r0 s <= ra_max ra /\ 12/10 * ra_m0 ra <= ra_max ra) /\
  (st_beta s <> 0 -> st_r0 s * Rpower 3 (st_beta s) <= ra_max ra /\ ra_m0 ra * Rpower 3 (ra_mb ra) <= ra_max ra) /\
  (st_local s = true -> st_annulus s <= ra_max ra).
Proof.
  unfold setup. intros H. destruct (st_lmask s) as [lm|]; [|discriminate].
  set (m0 := if st_use_rmask s then st_prm0 s else st_r0 s) in *. set (mb := if st_use_rmask s then st_prmb s else st_beta s) in *.
  replace (300/100) with 3 in H by lra.
  destruct (Req_EM_T (st_beta s) 0) as [Hb|Hb]; injection H as <-; cbn [ra_m0 ra_mb ra_max].
  - split; [reflexivity|]. split; [reflexivity|]. split; [|split; [intros; contradiction|]].
    + intros _. rcase (12/10 * st_r0 s) (12/10 * m0); destruct (st_local s); cbn [andb].
      * rcase (12/10 * m0) (st_annulus s); lra.
      * lra.
      * rcase (12/10 * st_r0 s) (st_annulus s); lra.
      * lra.
    + intros ->. cbn [andb]. rcase (12/10 * st_r0 s) (12/10 * m0); [rcase (12/10 * m0) (st_annulus s)|rcase (12/10 * st_r0 s) (st_annulus s)]; lra.
  - set (a := st_r0 s * Rpower 3 (st_beta s)). set (b := m0 * Rpower 3 mb).
    split; [reflexivity|]. split; [reflexivity|]. split; [intros; contradiction|]. split.
    + intros _. rcase a b; destruct (st_local s); cbn [andb].
      * rcase b (st_annulus s); lra.
      * lra.
      * rcase a (st_annulus s); lra.
      * lra.
    + intros ->. cbn [andb]. rcase a b; [rcase b (st_annulus s)|rcase a (st_annulus s)]; lra.
Qed.
Lemma setup_ok s lm : st_lmask s = Some lm -> exists ra, setup s = Ok ra.
Proof. intros E. unfold setup. rewrite E. destruct (Req_EM_T _ _); eexists; reflexivity. Qed.

Lemma radius_covered s ra lam : setup s = Ok ra -> 0 < st_r0 s -> 0 <= st_beta s -> 0 < lam <= 300 ->
  r_lambda (st_r0 s) (st_beta s) lam <= ra_max ra.
Proof.
  intros H H0 Hb Hl. destruct (setup_max s ra H) as (_ & _ & B0 & B1 & _). unfold r_lambda.
  destruct (Req_EM_T (st_beta s) 0) as [E|E].
  - rewrite E, pow_one by lra. destruct (B0 E). lra.
  - destruct (B1 E) as [H1 _]. apply Rle_trans with (2 := H1). apply Rmult_le_compat_l; [lra|]. apply pow_le; lra.
Qed.
Lemma mask_covered s ra lam z : setup s = Ok ra -> 0 < st_r0 s -> 0 <= st_beta s -> 0 < ra_m0 ra -> 0 <= ra_mb ra -> 0 < lam <= 300 ->
  0 < 1 + st_zpivot s -> 0 < 1 + z -> st_gamma s = 0 -> (st_beta s = 0 -> ra_mb ra = 0) -> r_mask s ra lam z <= ra_max ra.
Proof.
  intros H H0 Hb Hm Hmb Hl Hp Hz Hg Hbb. destruct (setup_max s ra H) as (_ & _ & B0 & B1 & _). unfold r_mask.
  rewrite Hg, pow_one by (apply Rdiv_lt_0_compat; lra). rewrite Rmult_1_r.
  pose proof (radius_covered s ra lam H H0 Hb Hl).
  destruct (Rltb _ _); [exact H1|].
  destruct (Req_EM_T (st_beta s) 0) as [E|E].
  - rewrite (Hbb E), pow_one by lra. destruct (B0 E). lra.
  - destruct (B1 E) as [_ H2]. apply Rle_trans with (2 := H2). apply Rmult_le_compat_l; [lra|]. apply pow_le; lra.
Qed.
