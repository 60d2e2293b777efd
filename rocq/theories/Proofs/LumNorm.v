(** Proofs about the luminosity filter. *)
From Coq Require Import Reals Lra.
From Verif.Base Require Import Py PyLemmas.
From Verif.Model Require Import BkgGen Depth Profile RedSamp LumNorm.
From Verif.Spec Require Import LumNorm.
From Verif.Proofs Require Import BkgGen Solver Depth RedSamp.
From Coq Require Import Lia List. Import ListNotations.
Local Open Scope R_scope.

Lemma Rabs_le_inv x a : Rabs x <= a -> - a <= x <= a.
Proof. intros H. pose proof (Rle_abs x). pose proof (Rle_abs (- x)) as G. rewrite Rabs_Ropp in G. lra. Qed.
Lemma schechter_pos a ms x : 0 < schechter a ms x.
Proof. unfold schechter, Rpower. apply Rmult_lt_0_compat; apply exp_pos. Qed.
Lemma sums_nth l : forall acc k, (k < length l)%nat -> nth_error (sums acc l) k = Some (acc + sum_f_R0 (fun i => nth i l 0) k).
Proof.
  induction l as [|x l IH]; intros acc k L; cbn [length] in L; [lia|]. cbn [sums]. destruct k as [|k]; [cbn; f_equal; reflexivity|]. cbn [nth_error]. rewrite IH by lia. f_equal.
  rewrite (decomp_sum (fun i => nth i (x :: l) 0) (S k)) by lia. cbn [pred nth]. ring.
Qed.
Lemma sums_len l : forall acc, length (sums acc l) = length l.
Proof. induction l as [|x l IH]; intros acc; cbn; [reflexivity|rewrite IH; reflexivity]. Qed.
Lemma round_near x : Rabs (IZR (roundR x) - x) <= 1/2.
Proof.
  unfold roundR. cbv zeta. destruct (base_Int_part x) as [A B]. set (f := Int_part x) in *. destruct (Rltb (x - IZR f) (1/2)) eqn:E1; [apply Rltb_iff in E1; apply Rabs_le; lra|]. apply Rltb_false in E1.
  destruct (Rltb (1/2) (x - IZR f)) eqn:E2; [apply Rltb_iff in E2; rewrite plus_IZR; apply Rabs_le; lra|]. apply Rltb_false in E2. destruct (Z.even f); [|rewrite plus_IZR]; apply Rabs_le; lra.
Qed.
Lemma round_mono x y : x <= y -> (roundR x <= roundR y)%Z.
Proof.
  intros L. destruct (Z.le_gt_cases (roundR x) (roundR y)) as [H|H]; [exact H|exfalso]. pose proof (round_near x) as A. pose proof (round_near y) as B. apply Rabs_le_inv in A, B.
  assert (G : IZR (roundR y) + 1 <= IZR (roundR x)) by (rewrite <- plus_IZR; apply IZR_le; lia). assert (E : x = y) by lra. subst y. lia.
Qed.
Lemma round_int z : roundR (IZR z) = z.
Proof.
  pose proof (round_near (IZR z)) as A. apply Rabs_le_inv in A. assert (B : (roundR (IZR z) - 1 < z < roundR (IZR z) + 1)%Z) by (split; apply lt_IZR; rewrite ?minus_IZR, ?plus_IZR; lra). lia.
Qed.
Lemma prefix_seq c a n t : (forall y, In y t -> (c <= y)%Z) -> prefix_len (fun y => (y <? c)%Z) (map (fun i => (a + Z.of_nat i)%Z) (seq 0 n) ++ t) = Z.to_nat (Z.min (Z.max 0 (c - a)) (Z.of_nat n)).
Proof.
  intros T. assert (G : forall n s, prefix_len (fun y => (y <? c)%Z) (map (fun i => (a + Z.of_nat i)%Z) (seq s n) ++ t) = Z.to_nat (Z.min (Z.max 0 (c - a - Z.of_nat s)) (Z.of_nat n))).
  { clear n. induction n as [|n IH]; intros s; cbn [seq map app prefix_len].
    - destruct t as [|y t]; cbn [prefix_len]; [lia|]. destruct (Z.ltb_spec y c); [specialize (T y (or_introl eq_refl)); lia|]. lia.
    - destruct (Z.ltb_spec (a + Z.of_nat s) c); [|lia]. rewrite IH. lia. }
  rewrite G. f_equal. lia.
Qed.
Lemma index_spec b0 n mag : mag <= 1000 -> lum_index b0 n mag = Z.to_nat (Z.min (Z.max 0 (roundR (mag * 100) - 100 * b0)) (Z.of_nat n)).
Proof.
  intros M. unfold lum_index, lum_integers. apply prefix_seq. intros y [<-|[]]. rewrite <- (round_int 100000). apply round_mono. lra.
Qed.
Lemma norm_spec b0 n alpha ms : (0 < n)%nat -> exists t, lumnorm b0 n alpha ms = Ok t /\ length t = S n /\
  (forall k, (k < n)%nat -> nth_error t k = Some (binned b0 (schechter alpha ms) k)) /\ nth_error t n = Some (binned b0 (schechter alpha ms) (n - 1) + schechter alpha ms (lum_bin b0 (n - 1)) / 100).
Proof.
  intros N. destruct n as [|m]; [lia|]. unfold lumnorm, lum_bins. cbn [bind]. eexists. split; [reflexivity|]. set (f := schechter alpha ms). set (l := map f _).
  assert (L : length l = S (S m)) by (unfold l; rewrite map_length, app_length, map_length, seq_length; cbn; lia). rewrite map_length, sums_len. split; [exact L|].
  assert (NT : forall i, (i <= m)%nat -> nth i l 0 = f (lum_bin b0 i)).
  { intros i I. unfold l. rewrite map_app, map_map, app_nth1 by (rewrite map_length, seq_length; lia). rewrite (nth_indep _ 0 (f (lum_bin b0 0))) by (rewrite map_length, seq_length; lia). rewrite (map_nth (fun x => f (lum_bin b0 x)) (seq 0 (S m)) 0%nat i), seq_nth by lia. reflexivity. }
  assert (NL : nth (S m) l 0 = f (lum_bin b0 m)). { unfold l. rewrite map_app, app_nth2 by (rewrite !map_length, seq_length; lia). rewrite !map_length, seq_length, Nat.sub_diag. reflexivity. }
  assert (Q : forall k, (k <= m)%nat -> 1/100 * (0 + sum_f_R0 (fun i => nth i l 0) k) = binned b0 f k).
  { intros k K. unfold binned. rewrite Rplus_0_l, scal_sum. apply sum_eq. intros i I. rewrite NT by lia. unfold lum_bin. replace (INR i * (1/100)) with (INR i / 100) by field. field. }
  split.
  - intros k K. rewrite nth_error_map, sums_nth by (rewrite L; lia). cbn [option_map]. f_equal. apply Q. lia.
  - rewrite nth_error_map, sums_nth by (rewrite L; lia). cbn [option_map]. f_equal. replace (S m - 1)%nat with m by lia. rewrite <- (Q m (le_n m)). rewrite tech5, NL. field.
Qed.
Lemma binned_pos b0 f k : (forall x, 0 < f x) -> 0 < binned b0 f k.
Proof. intros P. unfold binned. induction k as [|k IH]; cbn [sum_f_R0]; [pose proof (P (IZR b0 + INR 0 / 100)); lra|]. pose proof (P (IZR b0 + INR (S k) / 100)). lra. Qed.
Lemma binned_scale b0 f v k : v <> 0 -> binned b0 (fun x => f x / v) k = binned b0 f k / v.
Proof. intros V. unfold binned. induction k as [|k IH]; cbn [sum_f_R0]; [field; exact V|]. rewrite IH. field. exact V. Qed.
(** for alpha <= -1 the filter rises towards the faint end *)
Lemma schechter_mono a ms x y : a <= -1 -> x <= y -> schechter a ms x <= schechter a ms y.
Proof.
  intros A L. unfold schechter, Rpower. pose proof ln10_pos as P. apply Rmult_le_compat; try (apply Rlt_le, exp_pos).
  - assert (E : 4 / 10 * (a + 1) * (ms - x) * ln 10 <= 4 / 10 * (a + 1) * (ms - y) * ln 10). { apply Rmult_le_compat_r; [lra|]. nra. } destruct E as [E|E]; [left; apply exp_increasing, E|right; rewrite E; reflexivity].
  - assert (E : 4 / 10 * (ms - y) * ln 10 <= 4 / 10 * (ms - x) * ln 10) by (apply Rmult_le_compat_r; lra).
    assert (E2 : exp (4 / 10 * (ms - y) * ln 10) <= exp (4 / 10 * (ms - x) * ln 10)) by (destruct E as [E|E]; [left; apply exp_increasing, E|right; rewrite E; reflexivity]).
    destruct E2 as [E2|E2]; [left; apply exp_increasing; lra|right; rewrite E2; reflexivity].
Qed.
Lemma between f F b0 k : (forall x, IZR b0 <= x <= IZR b0 + INR k / 100 -> derivable_pt_lim F x (f x)) -> (forall x y, x <= y -> f x <= f y) -> (forall x, 0 <= f x) ->
  binned b0 f k - f (IZR b0 + INR k / 100) / 100 <= F (IZR b0 + INR k / 100) - F (IZR b0) <= binned b0 f k.
Proof.
  unfold binned. induction k as [|k IH]; intros D M P.
  - cbn [sum_f_R0 INR]. replace (IZR b0 + 0 / 100) with (IZR b0) by field. pose proof (P (IZR b0)). lra.
  - rewrite tech5. set (S0 := sum_f_R0 _ k) in *. assert (X : IZR b0 + INR k / 100 < IZR b0 + INR (S k) / 100) by (rewrite S_INR; lra).
    set (u := IZR b0 + INR k / 100) in *. set (v := IZR b0 + INR (S k) / 100) in *. assert (UV : v - u = 1/100) by (unfold u, v; rewrite S_INR; field).
    destruct (MVT_cor2 F f u v X) as (c & E & C1 & C2); [intros z Z; apply D; pose proof (pos_INR k); unfold u, v in *; lra|]. specialize (IH ltac:(intros z Z; apply D; unfold u, v in *; lra) M P). rewrite UV in E. pose proof (M u c ltac:(lra)). pose proof (M c v ltac:(lra)). lra.
Qed.

Lemma schechter_continuous a ms x : continuity_pt (schechter a ms) x.
Proof.
  unfold schechter, Rpower. apply derivable_continuous_pt. apply derivable_pt_mult.
  - apply (derivable_pt_comp (fun x => 4 / 10 * (a + 1) * (ms - x) * ln 10) exp); [reg|apply derivable_pt_exp].
  - apply (derivable_pt_comp (fun x => - exp (4 / 10 * (ms - x) * ln 10)) exp); [|apply derivable_pt_exp].
    apply (derivable_pt_opp (fun x => exp (4 / 10 * (ms - x) * ln 10))). apply (derivable_pt_comp (fun x => 4 / 10 * (ms - x) * ln 10) exp); [reg|apply derivable_pt_exp].
Qed.
Lemma filter_primitive a ms v lo hi : lo <= hi -> exists F, forall x, lo <= x <= hi -> derivable_pt_lim F x (schechter a ms x / v).
Proof.
  intros H. assert (C : forall x, lo <= x <= hi -> continuity_pt (fun x => schechter a ms x / v) x).
  { intros x _. apply (continuity_pt_mult (schechter a ms) (fun _ => / v)); [apply schechter_continuous|]. apply continuity_pt_const. intros ? ?. reflexivity. }
  exists (primitive H (FTC_P1 H C)). intros x X. apply (RiemannInt_P28 H C X).
Qed.
