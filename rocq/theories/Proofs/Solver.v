From Coq Require Import Reals Lra.
From Verif.Base Require Import Py PyLemmas.
From Verif.Model Require Import BkgGen Solver.
From Verif.Spec Require Import Solver.
From Verif.Proofs Require Import BkgGen.
Local Open Scope R_scope.

Lemma Rltb_false x y : Rltb x y = false <-> y <= x.
Proof. unfold Rltb. destruct (Rlt_dec x y); split; intros; try discriminate; try lra; reflexivity. Qed.

(** * abstract bisection over an arbitrary right-hand side *)
Section Bisect.
  Variable out : R -> R.
  Definition adj (o : R) : R := if Rltb o 1 then 9/10 else o.
  Definition bstep (s : R * R) : R * R :=
    let mid := (snd s + fst s) / 2 in
    if Rltb 0 ((adj (out (fst s)) - fst s) * (out mid - mid)) then (mid, snd s) else (fst s, mid).
  Fixpoint biter (n : nat) (s : R * R) : R * R := match n with O => s | S k => biter k (bstep s) end.

  Lemma adj_adj o : adj (adj o) = adj o.
  Proof.
    unfold adj. destruct (Rltb o 1) eqn:E; [|rewrite E; reflexivity].
    destruct (Rltb (9/10) 1) eqn:E2; reflexivity.
  Qed.

  Lemma bstep_width s : snd (bstep s) - fst (bstep s) = (snd s - fst s) / 2.
  Proof. unfold bstep. cbv zeta. destruct (Rltb _ _); cbn [fst snd]; lra. Qed.
  Lemma biter_width n : forall s, snd (biter n s) - fst (biter n s) = (snd s - fst s) / 2 ^ n.
  Proof.
    induction n as [|n IH]; intros s; cbn [biter pow]; [field|]. rewrite IH, bstep_width.
    field. apply pow_nonzero. lra.
  Qed.
  Lemma biter_S n s : biter (S n) s = bstep (biter n s).
  Proof. revert s; induction n as [|n IH]; intros s; [reflexivity|]. cbn [biter] in *. rewrite <- IH. reflexivity. Qed.

  Definition binv (s : R * R) : Prop := 1/2 <= fst s /\ fst s < snd s /\ snd s <= 2000.
  Lemma bstep_inv s : binv s -> binv (bstep s).
  Proof. unfold binv, bstep. cbv zeta. destruct (Rltb _ _); cbn [fst snd]; lra. Qed.
  Lemma biter_inv n s : binv s -> binv (biter n s).
  Proof. revert s; induction n as [|n IH]; intros s H; [exact H|]. apply IH, bstep_inv, H. Qed.

  (** with the guard, the ends keep opposite signs *)
  Definition bsign (s : R * R) : Prop :=
    (fst s = 1/2 \/ fst s < out (fst s)) /\ (snd s = 2000 \/ out (snd s) <= snd s).
  Lemma adj_pos s : low_end_ok out -> binv s -> bsign s -> 0 < adj (out (fst s)) - fst s.
  Proof.
    intros Hg [H1 [H2 H3]] [Hs _]. unfold adj. destruct (Rltb (out (fst s)) 1) eqn:E.
    - apply Rltb_iff in E. destruct Hs as [->|Hs]; [lra|].
      destruct (Rlt_le_dec (fst s) (9/10)) as [Hlt|Hge]; [lra|].
      destruct (Hg (fst s)) as [H|H]; lra.
    - apply Rltb_false in E. destruct Hs as [Hs|Hs]; [rewrite Hs in *; lra|lra].
  Qed.
  Lemma bstep_sign s : low_end_ok out -> binv s -> bsign s -> bsign (bstep s).
  Proof.
    intros Hg Hi Hs. pose proof (adj_pos s Hg Hi Hs) as Hp. destruct Hs as [Ha Hb].
    unfold bstep. cbv zeta. destruct (Rltb _ _) eqn:E; unfold bsign; cbn [fst snd].
    - apply Rltb_iff in E. split; [|exact Hb]. right.
      set (mid := (snd s + fst s) / 2) in *. destruct (Rlt_le_dec mid (out mid)) as [H|H]; [exact H|].
      exfalso. assert ((adj (out (fst s)) - fst s) * (out mid - mid) <= 0); [|lra].
      rewrite <- (Rmult_0_r (adj (out (fst s)) - fst s)). apply Rmult_le_compat_l; lra.
    - apply Rltb_false in E. split; [exact Ha|]. right.
      set (mid := (snd s + fst s) / 2) in *. destruct (Rlt_le_dec mid (out mid)) as [H|H]; [|exact H].
      exfalso. assert (0 < (adj (out (fst s)) - fst s) * (out mid - mid)); [|lra].
      apply Rmult_lt_0_compat; lra.
  Qed.
  Lemma biter_sign n s : low_end_ok out -> binv s -> bsign s -> bsign (biter n s).
  Proof.
    intros Hg. revert s; induction n as [|n IH]; intros s Hi Hs; [exact Hs|].
    apply IH; [apply bstep_inv, Hi|apply bstep_sign; assumption].
  Qed.
End Bisect.

(** * the solver refines the abstract bisection *)
Lemma weights_length e u lam gs arr : List.length arr = List.length gs ->
  List.length (nfw_weights e u lam gs arr) = List.length gs.
Proof. intros H. unfold nfw_weights. rewrite map_length, combine_length, H. apply Nat.min_id. Qed.

Lemma weights_nth e u lam gs arr i : List.length arr = List.length gs ->
  nth_error (nfw_weights e u lam gs arr) i =
  match nth_error gs i, nth_error arr i with Some g, Some a => Some (weights1 e u lam (g, a)) | _, _ => None end.
Proof.
  unfold nfw_weights. revert arr i; induction gs as [|g gs IH]; intros [|a arr] [|i] H; try discriminate; try reflexivity.
  cbn [combine map nth_error]. apply IH. cbn in H. lia.
Qed.

Lemma norm_eq r : profile_norm r = nfwnorm r.
Proof. reflexivity. Qed.
Lemma prob_eq e lam g : prob e lam g = pval lam (nfwnorm (radius e lam)) g.
Proof. unfold prob, pval. rewrite norm_eq. reflexivity. Qed.
Lemma radial_eq e lam g : radial e lam g =
  if Rltb 0 (e_rsig e) then soft_theta e (radius e lam) (g_r g) else if Rltb (g_r g) (radius e lam) then 1 else 0.
Proof.
  unfold radial, soft_theta, Rltb. change (cluster_radius e lam) with (radius e lam). cbv zeta. set (rl := radius e lam).
  repeat match goal with |- context [Rlt_dec ?a ?b] => destruct (Rlt_dec a b); cbv iota end; try lra.
  replace ((rl - g_r g) * (1 / (sqrt 2 * e_rsig e))) with ((rl - g_r g) / (sqrt 2 * e_rsig e)) by (unfold Rdiv; ring). lra.
Qed.
Lemma missing_eq e lam : missing e lam = cval e (radius e lam).
Proof. unfold missing, cval. change (cluster_radius e lam) with (radius e lam). cbv zeta. f_equal. ring. Qed.
Lemma weights1_wt e lam g a : a_wt (weights1 e true lam (g, a)) = prob e lam g * g_w g * radial e lam g.
Proof.
  rewrite radial_eq, prob_eq. unfold weights1. destruct (Rltb 0 (e_rsig e)); [reflexivity|].
  destruct (Rltb (g_r g) _); cbn [a_wt]; ring.
Qed.
Lemma weights1_p e lam g a : a_p (weights1 e true lam (g, a)) = prob e lam g.
Proof. rewrite prob_eq. unfold weights1. destruct (Rltb 0 (e_rsig e)); [reflexivity|]. destruct (Rltb (g_r g) _); reflexivity. Qed.

Lemma sumwt_from arr : forall s, fold_left (fun s a => s + a_wt a) arr s = s + Rsum (map a_wt arr).
Proof. induction arr as [|a arr IH]; intros s; cbn [fold_left map Rsum]; [ring|]. rewrite IH. ring. Qed.

Lemma total_rhs e lam gs arr : List.length arr = List.length gs ->
  total e lam (nfw_weights e true lam gs arr) = richness_rhs e gs lam.
Proof.
  intros H. unfold total, richness_rhs, sumwt. rewrite missing_eq, sumwt_from. f_equal. rewrite Rplus_0_l.
  unfold nfw_weights. revert arr H; induction gs as [|g gs IH]; intros [|a arr] H; try discriminate; [reflexivity|].
  cbn [combine map Rsum]. rewrite weights1_wt, IH by (cbn in H; lia). reflexivity.
Qed.

Definition sgood (e : senv) (gs : list gal) (s : sst) : Prop :=
  List.length (s_arr s) = List.length gs /\
  (forall o, s_olo s = Some o -> o = adj (richness_rhs e gs (s_lo s))).
Definition ends (s : sst) : R * R := (s_lo s, s_hi s).

Lemma step_refines e gs s : sgood e gs s ->
  sgood e gs (solve_step e gs s) /\ ends (solve_step e gs s) = bstep (richness_rhs e gs) (ends s) /\
  exists arr, List.length arr = List.length gs /\
    s_arr (solve_step e gs s) = nfw_weights e true ((s_hi s + s_lo s) / 2) gs arr.
Proof.
  intros [Hl Ho]. unfold solve_step. cbv zeta.
  set (mid := (s_hi s + s_lo s) / 2).
  assert (Hx : exists olo arr, match s_olo s with
                     | Some o => (o, s_arr s)
                     | None => (total e (s_lo s) (nfw_weights e true (s_lo s) gs (s_arr s)), nfw_weights e true (s_lo s) gs (s_arr s))
                     end = (olo, arr) /\ List.length arr = List.length gs /\ adj olo = adj (richness_rhs e gs (s_lo s))).
  { destruct (s_olo s) as [o|].
    - exists o, (s_arr s). split; [reflexivity|]. split; [exact Hl|]. rewrite (Ho o eq_refl). apply adj_adj.
    - eexists _, _. split; [reflexivity|]. split; [apply weights_length, Hl|]. rewrite total_rhs by exact Hl. reflexivity. }
  destruct Hx as (olo & arr & -> & Hla & Hadj). cbv zeta.
  rewrite total_rhs by exact Hla.
  change (if Rltb olo 1 then 9 / 10 else olo) with (adj olo). rewrite Hadj.
  unfold bstep, ends. cbv zeta. cbn [fst snd]. fold mid.
  destruct (Rltb 0 _); cbn [s_lo s_hi s_arr s_olo].
  - split; [|split; [reflexivity|exists arr; split; [exact Hla|reflexivity]]].
    split; cbn [s_lo s_hi s_arr s_olo]; [apply weights_length, Hla|discriminate].
  - split; [|split; [reflexivity|exists arr; split; [exact Hla|reflexivity]]].
    split; cbn [s_lo s_hi s_arr s_olo]; [apply weights_length, Hla|]. intros o [= <-]. reflexivity.
Qed.

Fixpoint siter (n : nat) (e : senv) (gs : list gal) (s : sst) : sst :=
  match n with O => s | S k => siter k e gs (solve_step e gs s) end.
Lemma siter_refines n e gs : forall s, sgood e gs s ->
  sgood e gs (siter n e gs s) /\ ends (siter n e gs s) = biter (richness_rhs e gs) n (ends s).
Proof.
  induction n as [|n IH]; intros s H; [split; [exact H|reflexivity]|].
  destruct (step_refines e gs s H) as (H1 & H2 & _). cbn [siter biter]. rewrite <- H2. apply IH, H1.
Qed.
Lemma siter_S n e gs s : siter (S n) e gs s = solve_step e gs (siter n e gs s).
Proof. revert s; induction n as [|n IH]; intros s; [reflexivity|]. cbn [siter] in *. rewrite <- IH. reflexivity. Qed.

Lemma init_good e gs : sgood e gs (solve_init gs).
Proof. split; [unfold solve_init; cbn [s_arr]; apply map_length|discriminate]. Qed.
Lemma init_binv gs : binv (ends (solve_init gs)).
Proof. unfold binv, ends, solve_init. cbn [s_lo s_hi fst snd]. lra. Qed.

Lemma loop_iter fuel tol e gs : forall s s', solve_loop fuel tol e gs s = Some s' ->
  exists n, (n <= fuel)%nat /\ s' = siter n e gs s /\ Rabs (s_hi s' - s_lo s') <= 2 * tol /\
    (forall k, (k < n)%nat -> 2 * tol < Rabs (s_hi (siter k e gs s) - s_lo (siter k e gs s))).
Proof.
  induction fuel as [|fuel IH]; intros s s'; cbn [solve_loop]; destruct (Rltb _ _) eqn:E.
  - discriminate.
  - intros [= <-]. exists 0%nat. apply Rltb_false in E. repeat split; [lia|exact E|intros k Hk; lia].
  - intros H. destruct (IH _ _ H) as (n & Hn & -> & Hw & Hk). exists (S n). apply Rltb_iff in E.
    repeat split; [lia|exact Hw|]. intros [|k] Hlt; [exact E|]. apply Hk. lia.
  - intros [= <-]. exists 0%nat. apply Rltb_false in E. repeat split; [lia|exact E|intros k Hk; lia].
Qed.

Lemma loop_mono fuel tol e gs : forall s s', solve_loop fuel tol e gs s = Some s' ->
  forall fuel', (fuel <= fuel')%nat -> solve_loop fuel' tol e gs s = Some s'.
Proof.
  induction fuel as [|fuel IH]; intros s s' H fuel' Hle; cbn [solve_loop] in H; destruct fuel' as [|fuel']; cbn [solve_loop]; try lia;
    destruct (Rltb _ _) eqn:E; try discriminate; try exact H.
  apply IH; [exact H|lia].
Qed.

Lemma siter_width n e gs : s_hi (siter n e gs (solve_init gs)) - s_lo (siter n e gs (solve_init gs)) = (2000 - 1/2) / 2 ^ n.
Proof.
  destruct (siter_refines n e gs (solve_init gs) (init_good e gs)) as [_ H].
  change (s_hi (siter n e gs (solve_init gs))) with (snd (ends (siter n e gs (solve_init gs)))).
  change (s_lo (siter n e gs (solve_init gs))) with (fst (ends (siter n e gs (solve_init gs)))).
  rewrite H, biter_width. reflexivity.
Qed.

Lemma loop_terminates_from tol e gs N :
  (2000 - 1/2) / 2 ^ N <= 2 * tol ->
  forall d n, (n + d = N)%nat -> exists s', solve_loop d tol e gs (siter n e gs (solve_init gs)) = Some s'.
Proof.
  intros HN. induction d as [|d IH]; intros n Hn.
  - replace n with N by lia. cbn [solve_loop]. rewrite siter_width.
    assert (0 < (2000 - 1/2) / 2 ^ N) by (apply Rdiv_lt_0_compat; [lra|apply pow_lt; lra]).
    rewrite Rabs_pos_eq by lra. destruct (Rltb _ _) eqn:E; [apply Rltb_iff in E; lra|eauto].
  - cbn [solve_loop]. destruct (Rltb _ _); [|eauto].
    rewrite <- siter_S. apply IH. lia.
Qed.

Lemma pow2_large x : 0 < x -> exists n, x <= 2 ^ n.
Proof.
  intros H. destruct (Pow_x_infinity 2 ltac:(rewrite Rabs_pos_eq; lra) x) as [n Hn].
  exists n. specialize (Hn n (le_n n)). rewrite Rabs_pos_eq in Hn; [lra|apply pow_le; lra].
Qed.

Lemma solver_terminates tol e gs : 0 < tol -> exists N s', forall fuel, (N <= fuel)%nat -> solve fuel tol e gs = Some s'.
Proof.
  intros Ht. destruct (pow2_large ((2000 - 1/2) / (2 * tol))) as [N HN].
  { apply Rdiv_lt_0_compat; lra. }
  assert (Hw : (2000 - 1/2) / 2 ^ N <= 2 * tol).
  { assert (H2 : 0 < 2 ^ N) by (apply pow_lt; lra).
    apply (Rmult_le_reg_r (2 ^ N)); [exact H2|]. unfold Rdiv at 1. rewrite Rmult_assoc, Rinv_l by lra.
    apply (Rmult_le_compat_r (2 * tol)) in HN; [|lra]. unfold Rdiv in HN at 1. rewrite Rmult_assoc, Rinv_l in HN by lra. lra. }
  destruct (loop_terminates_from tol e gs N Hw N 0%nat eq_refl) as [s' Hs]. cbn [siter] in Hs.
  exists N, (solve_end e gs s'). intros fuel Hf. unfold solve. rewrite (loop_mono _ _ _ _ _ _ Hs fuel Hf). reflexivity.
Qed.

(** everything known about the end of a run *)
Lemma solve_inv fuel tol e gs r : solve fuel tol e gs = Some r ->
  exists n s, s = siter n e gs (solve_init gs) /\ r = solve_end e gs s /\
    binv (ends s) /\ s_hi s - s_lo s <= 2 * tol /\ sgood e gs s /\
    ends s = biter (richness_rhs e gs) n (1/2, 2000) /\
    (forall k, (k < n)%nat -> 2 * tol < (2000 - 1/2) / 2 ^ k).
Proof.
  unfold solve. destruct (solve_loop _ _ _ _ _) as [s|] eqn:E; [|discriminate]. intros [= <-].
  destruct (loop_iter _ _ _ _ _ _ E) as (n & _ & Hs & Hw & Hk).
  exists n, s. destruct (siter_refines n e gs _ (init_good e gs)) as [H1 H2]. rewrite <- Hs in H1, H2.
  assert (Hb : binv (ends s)) by (rewrite H2; apply biter_inv, init_binv).
  assert (Hwid : s_hi s - s_lo s = (2000 - 1/2) / 2 ^ n) by (rewrite Hs; apply siter_width).
  split; [exact Hs|]. split; [reflexivity|]. split; [exact Hb|]. split.
  - destruct Hb as [_ [Hlt _]]. unfold ends in Hlt. cbn [fst snd] in Hlt. rewrite Rabs_pos_eq in Hw by lra. exact Hw.
  - split; [exact H1|]. split; [exact H2|]. intros k Hlt. specialize (Hk k Hlt).
    rewrite siter_width, Rabs_pos_eq in Hk; [exact Hk|].
    apply Rlt_le, Rdiv_lt_0_compat; [lra|apply pow_lt; lra].
Qed.

(** * bounds *)
Lemma nfwnorm_pos rl : 0 < nfwnorm rl.
Proof. apply exp_pos. Qed.

Lemma prob_bounds e lam g : 0 <= lam -> gal_ok g -> 0 <= prob e lam g <= 1.
Proof.
  intros Hl (Hu & _ & Hb). rewrite prob_eq. unfold pval. destruct (g_b g) as [|b]; [lra|]. specialize (Hb b eq_refl).
  set (n := nfwnorm (radius e lam)). assert (Hn : 0 < n) by apply nfwnorm_pos.
  assert (Hx : 0 <= lam * g_u g * n) by (repeat apply Rmult_le_pos; lra).
  destruct (Req_EM_T _ 0) as [_|Hne]; [lra|].
  assert (Hp : 0 < lam * g_u g * n + b) by lra.
  split; [apply Rle_mult_inv_pos; lra|]. apply (Rmult_le_reg_r (lam * g_u g * n + b)); [exact Hp|].
  unfold Rdiv. rewrite Rmult_assoc, Rinv_l by lra. lra.
Qed.

Lemma soft_bounds e rl r : erf_ok e -> 0 <= soft_theta e rl r <= 1.
Proof.
  intros H. unfold soft_theta. destruct (Rltb _ _); [lra|]. destruct (Rltb _ _); [lra|].
  specialize (H ((rl - r) * (1 / (sqrt 2 * e_rsig e)))). lra.
Qed.

Definition aok (g : gal) (a : garr) : Prop := 0 <= a_p a <= 1 /\ 0 <= a_wt a <= g_w g /\ 0 <= a_th a <= 1.

Lemma mul_unit x y w : 0 <= x <= 1 -> 0 <= y <= 1 -> 0 <= w -> 0 <= x * w * y <= w.
Proof.
  intros Hx Hy Hw. split; [apply Rmult_le_pos; [apply Rmult_le_pos; lra|lra]|].
  assert (x * w <= w) by (rewrite <- (Rmult_1_l w) at 2; apply Rmult_le_compat_r; lra).
  assert (0 <= x * w) by (apply Rmult_le_pos; lra).
  assert (x * w * y <= x * w) by (rewrite <- (Rmult_1_r (x * w)) at 2; apply Rmult_le_compat_l; lra). lra.
Qed.

Lemma weights1_ok e u lam g a : 0 <= lam -> gal_ok g -> erf_ok e -> aok g a -> aok g (weights1 e u lam (g, a)).
Proof.
  intros Hl Hg He (Hp & Hwt & Hth). pose proof (prob_bounds e lam g Hl Hg) as Hpb. destruct Hg as (Hu & Hw & Hb).
  rewrite prob_eq in Hpb. unfold weights1, aok.
  assert (Hpp : 0 <= (if u then pval lam (nfwnorm (radius e lam)) g else a_p a) <= 1) by (destruct u; assumption).
  set (p := if u then pval lam (nfwnorm (radius e lam)) g else a_p a) in *.
  destruct (Rltb 0 (e_rsig e)); [|destruct (Rltb (g_r g) (radius e lam))]; cbn [a_p a_wt a_th].
  - pose proof (soft_bounds e (radius e lam) (g_r g) He) as Hs. split; [exact Hpp|]. split; [|exact Hs].
    destruct u; [apply mul_unit; assumption|exact Hwt].
  - split; [exact Hpp|]. split; [|lra]. destruct u; [|exact Hwt].
    pose proof (mul_unit p 1 (g_w g) Hpp ltac:(lra) Hw). lra.
  - split; [exact Hpp|]. split; [lra|exact Hth].
Qed.

Definition arr_ok (gs : list gal) (arr : list garr) : Prop :=
  List.length arr = List.length gs /\ forall i g a, nth_error gs i = Some g -> nth_error arr i = Some a -> aok g a.

Lemma weights_arr_ok e u lam gs arr : 0 <= lam -> Forall gal_ok gs -> erf_ok e -> arr_ok gs arr -> arr_ok gs (nfw_weights e u lam gs arr).
Proof.
  intros Hl Hg He [H1 H2]. split; [apply weights_length, H1|]. intros i g a Hi Ha.
  rewrite weights_nth in Ha by exact H1. rewrite Hi in Ha. destruct (nth_error arr i) as [a0|] eqn:E; [|discriminate].
  injection Ha as <-. apply weights1_ok; auto. - rewrite Forall_forall in Hg. apply Hg. eapply nth_error_In, Hi. - eapply H2; eauto.
Qed.

Lemma siter_arr_ok e gs : Forall gal_ok gs -> erf_ok e -> forall n, arr_ok gs (s_arr (siter n e gs (solve_init gs))).
Proof.
  intros Hg He. induction n as [|n IH].
  - split; [apply map_length|]. intros i g a Hi Ha. cbn [siter solve_init s_arr] in Ha. rewrite nth_error_map, Hi in Ha.
    injection Ha as <-. rewrite Forall_forall in Hg. destruct (Hg g (nth_error_In _ _ Hi)) as (_ & Hw & _).
    unfold aok. cbn [a_p a_wt a_th]. lra.
  - rewrite siter_S. pose proof (siter_refines n e gs _ (init_good e gs)) as [_ Hr].
    assert (Hb : binv (ends (siter n e gs (solve_init gs)))) by (rewrite Hr; apply biter_inv, init_binv).
    set (s := siter n e gs (solve_init gs)) in *. destruct Hb as [B1 [B2 B3]]. unfold ends in *. cbn [fst snd] in *.
    unfold solve_step.
    destruct (s_olo s); cbv zeta; destruct (Rltb 0 _); cbn [s_arr];
      repeat (apply weights_arr_ok; auto; try lra).
Qed.

Lemma solve_end_arr e gs s : o_arr (solve_end e gs s) = nfw_weights e false ((s_lo s + s_hi s) / 2) gs (s_arr s).
Proof. unfold solve_end. cbv zeta. destruct (Rltb _ _); reflexivity. Qed.

Lemma last_mid e gs n tol :
  let s := siter (S n) e gs (solve_init gs) in
  let mid := (s_hi (siter n e gs (solve_init gs)) + s_lo (siter n e gs (solve_init gs))) / 2 in
  s_hi s - s_lo s <= 2 * tol -> Rabs (mid - (s_lo s + s_hi s) / 2) <= tol.
Proof.
  cbv zeta. rewrite siter_S. set (t := siter n e gs (solve_init gs)). intros Hw.
  assert (Hg : sgood e gs t) by apply (siter_refines n e gs _ (init_good e gs)).
  destruct (step_refines e gs t Hg) as (_ & He & _). unfold ends, bstep in He. cbv zeta in He. cbn [fst snd] in He.
  assert (Hb : binv (ends t)).
  { destruct (siter_refines n e gs _ (init_good e gs)) as [_ Hr]. fold t in Hr. rewrite Hr. apply biter_inv, init_binv. }
  destruct Hb as [B1 [B2 B3]]. unfold ends in *. cbn [fst snd] in *.
  destruct (Rltb 0 _); injection He as E1 E2; rewrite E1, E2 in *; apply Rabs_le; lra.
Qed.

(** * a near-threshold cluster: root at 1.1, solver ends near 1.47 *)
Definition low_env : senv := mkSE (fun _ => 0) 1 0 0 0 0 0 0.
Definition low_gal : gal := mkG (/ nfwnorm 1) (Bval 10) (1/2) (37/40).
Definition low_gals : list gal := repeat low_gal 12.

Lemma low_radius lam : radius low_env lam = 1.
Proof. unfold radius, low_env, Rpower. cbn [e_r0 e_beta]. rewrite Rmult_0_l, exp_0. ring. Qed.

Lemma low_rhs x : 0 < x -> richness_rhs low_env low_gals x = 111/10 * (x / (x + 10)).
Proof.
  intros Hx. unfold richness_rhs, low_gals.
  assert (Hp : prob low_env x low_gal = x / (x + 10)).
  { rewrite prob_eq. unfold pval. rewrite low_radius. cbn [low_gal g_b g_u].
    replace (x * / nfwnorm 1 * nfwnorm 1) with x by (field; pose proof (nfwnorm_pos 1); lra).
    destruct (Req_EM_T (x + 10) 0); [lra|reflexivity]. }
  assert (Hr : radial low_env x low_gal = 1).
  { rewrite radial_eq. cbn [low_env e_rsig]. unfold Rltb at 1. destruct (Rlt_dec 0 0); [lra|].
    rewrite low_radius. cbn [low_gal g_r]. unfold Rltb. destruct (Rlt_dec (1/2) 1); [reflexivity|lra]. }
  cbn [repeat map Rsum]. rewrite Hp, Hr, missing_eq. unfold cval. cbn [low_env e_c0 e_c1 e_c2 e_c3 low_gal g_w].
  rewrite low_radius, Rmax_left by lra. field. lra.
Qed.

Lemma low_above x : 11/10 < x -> richness_rhs low_env low_gals x < x.
Proof.
  intros Hx. rewrite low_rhs by lra. apply (Rmult_lt_reg_r (x + 10)); [lra|].
  replace (111/10 * (x / (x + 10)) * (x + 10)) with (111/10 * x) by (field; lra). nra.
Qed.
Lemma low_below x : 0 < x < 11/10 -> x < richness_rhs low_env low_gals x.
Proof.
  intros Hx. rewrite low_rhs by lra. apply (Rmult_lt_reg_r (x + 10)); [lra|].
  replace (111/10 * (x / (x + 10)) * (x + 10)) with (111/10 * x) by (field; lra). nra.
Qed.
Lemma low_small x : 0 < x < 99/100 -> richness_rhs low_env low_gals x < 1.
Proof.
  intros Hx. rewrite low_rhs by lra. apply (Rmult_lt_reg_r (x + 10)); [lra|].
  replace (111/10 * (x / (x + 10)) * (x + 10)) with (111/10 * x) by (field; lra). lra.
Qed.

Local Notation lout := (richness_rhs low_env low_gals).
Lemma adj_low x : 0 < x < 99/100 -> adj (lout x) = 9/10.
Proof. intros H. unfold adj. pose proof (low_small x H) as Hs. apply Rltb_iff in Hs. rewrite Hs. reflexivity. Qed.

Lemma low_hi_step hi : 11/10 < (hi + 1/2) / 2 -> bstep lout (1/2, hi) = (1/2, (hi + 1/2) / 2).
Proof.
  intros H. unfold bstep. cbv zeta. cbn [fst snd]. rewrite adj_low by lra.
  destruct (Rltb _ _) eqn:E; [|reflexivity]. apply Rltb_iff in E. pose proof (low_above _ H). nra.
Qed.
Definition low_H : R := 1/2 + (2000 - 1/2) / 2048.
Lemma low_eleven : biter lout 11 (1/2, 2000) = (1/2, low_H).
Proof. cbn [biter]. do 11 (rewrite low_hi_step by lra). unfold low_H. f_equal. field. Qed.

Lemma low_flip n : snd (biter lout (12 + n) (1/2, 2000)) = low_H /\
  adj (lout (fst (biter lout (12 + n) (1/2, 2000)))) < fst (biter lout (12 + n) (1/2, 2000)) /\
  98/100 < fst (biter lout (12 + n) (1/2, 2000)) < low_H.
Proof.
  induction n as [|n IH].
  - change (12 + 0)%nat with 12%nat. rewrite biter_S, low_eleven. unfold bstep. cbv zeta. cbn [fst snd].
    rewrite adj_low by lra.
    assert (Hm : 98/100 < (low_H + 1/2) / 2 < 99/100) by (unfold low_H; lra).
    pose proof (low_below ((low_H + 1/2) / 2) ltac:(lra)) as Hb.
    destruct (Rltb _ _) eqn:E; cbn [fst snd].
    + rewrite adj_low by lra. unfold low_H in *. lra.
    + apply Rltb_false in E. exfalso. nra.
  - replace (12 + S n)%nat with (S (12 + n)) by lia. rewrite biter_S.
    set (s := biter lout (12 + n) (1/2, 2000)) in *. destruct IH as (H1 & H2 & H3).
    unfold bstep. cbv zeta. rewrite H1.
    assert (Hm : 11/10 < (low_H + fst s) / 2 < low_H) by (unfold low_H in *; lra).
    pose proof (low_above ((low_H + fst s) / 2) ltac:(lra)) as Ha.
    destruct (Rltb _ _) eqn:E; cbn [fst snd].
    + split; [reflexivity|]. split; [|lra]. unfold adj. destruct (Rltb _ 1); lra.
    + apply Rltb_false in E. exfalso. nra.
Qed.

Lemma low_result fuel r : solve fuel (1/100) low_env low_gals = Some r -> 14/10 < o_lam r.
Proof.
  intros H. destruct (solve_inv _ _ _ _ _ H) as (n & s & Hs & -> & Hb & Hw & _ & Hi & _).
  assert (Hn : (12 <= n)%nat).
  { destruct (le_lt_dec 12 n) as [h|h]; [exact h|]. exfalso.
    assert (Hwid : s_hi s - s_lo s = (2000 - 1/2) / 2 ^ n) by (rewrite Hs; apply siter_width).
    assert (Hp : 2 ^ n <= 2 ^ 11) by (apply Rle_pow; [lra|lia]).
    assert (H0 : 0 < 2 ^ n) by (apply pow_lt; lra).
    assert (Hx : (2000 - 1/2) = (s_hi s - s_lo s) * 2 ^ n) by (rewrite Hwid; field; lra).
    replace (2 ^ 11) with 2048 in Hp by (cbn [pow]; ring). nra. }
  replace n with (12 + (n - 12))%nat in Hi by lia.
  destruct (low_flip (n - 12)) as (L1 & _ & L3). rewrite <- Hi in *. unfold ends in *. cbn [fst snd] in *.
  unfold solve_end. cbv zeta. unfold low_H in *. destruct (Rltb _ _) eqn:E; cbn [o_lam]; [apply Rltb_iff in E|]; lra.
Qed.

(** * theta_r in the hard-cut mode is never lowered *)
Lemma weights_theta_sticky e u lam gs arr i a : e_rsig e <= 0 -> List.length arr = List.length gs ->
  nth_error arr i = Some a -> a_th a = 1 ->
  exists a', nth_error (nfw_weights e u lam gs arr) i = Some a' /\ a_th a' = 1.
Proof.
  intros Hr Hl Ha H1. rewrite weights_nth, Ha by exact Hl.
  destruct (nth_error gs i) as [g|] eqn:Eg.
  - eexists. split; [reflexivity|]. unfold weights1. apply Rltb_false in Hr. rewrite Hr.
    destruct (Rltb (g_r g) (radius e lam)); [reflexivity|exact H1].
  - exfalso. apply nth_error_None in Eg. assert (i < List.length arr)%nat by (apply nth_error_Some; congruence). lia.
Qed.

Lemma step_theta_sticky e gs s i a : e_rsig e <= 0 -> List.length (s_arr s) = List.length gs ->
  nth_error (s_arr s) i = Some a -> a_th a = 1 ->
  exists a', nth_error (s_arr (solve_step e gs s)) i = Some a' /\ a_th a' = 1.
Proof.
  intros Hr Hl Ha H1. unfold solve_step. cbv zeta.
  set (m := (s_hi s + s_lo s) / 2).
  destruct (s_olo s); destruct (Rltb 0 _); cbn [s_arr].
  1, 2: apply weights_theta_sticky with (a := a); assumption.
  all: destruct (weights_theta_sticky e true (s_lo s) gs (s_arr s) i a Hr Hl Ha H1) as (a1 & E1 & T1);
    apply weights_theta_sticky with (a := a1); [exact Hr|apply weights_length, Hl|exact E1|exact T1].
Qed.

Lemma hard_theta fuel tol e gs r : e_rsig e <= 0 -> tol < 999 -> solve fuel tol e gs = Some r ->
  forall i g a, nth_error gs i = Some g -> nth_error (o_arr r) i = Some a ->
  g_r g < radius e ((2000 + 1/2) / 2) -> a_th a = 1.
Proof.
  intros Hr Ht H i g a Hi Ha Hg. destruct (solve_inv _ _ _ _ _ H) as (n & s & Hs & -> & Hb & Hw & _ & _ & _).
  destruct n as [|n].
  { exfalso. rewrite Hs in Hw. cbn [siter solve_init s_lo s_hi] in Hw. lra. }
  assert (Hst : forall k, exists a', nth_error (s_arr (siter (S k) e gs (solve_init gs))) i = Some a' /\ a_th a' = 1).
  { induction k as [|k IH].
    - cbn [siter]. destruct (step_refines e gs (solve_init gs) (init_good e gs)) as (_ & _ & arr & Hla & ->).
      cbn [solve_init s_lo s_hi]. rewrite weights_nth, Hi by exact Hla.
      destruct (nth_error arr i) as [a0|] eqn:E0.
      + eexists. split; [reflexivity|]. unfold weights1. apply Rltb_false in Hr. rewrite Hr.
        apply Rltb_iff in Hg. rewrite Hg. reflexivity.
      + exfalso. apply nth_error_None in E0. assert (i < List.length gs)%nat by (apply nth_error_Some; congruence). lia.
    - destruct IH as (a1 & E1 & T1). rewrite siter_S. apply step_theta_sticky with (a := a1); auto.
      apply (siter_refines (S k) e gs _ (init_good e gs)). }
  destruct (Hst n) as (a1 & E1 & T1). rewrite <- Hs in E1. rewrite solve_end_arr in Ha.
  destruct (weights_theta_sticky e false ((s_lo s + s_hi s) / 2) gs (s_arr s) i a1 Hr) as (a2 & E2 & T2); auto.
  { rewrite Hs. apply (siter_refines (S n) e gs _ (init_good e gs)). }
  congruence.
Qed.
