(** C48: photometric redshifts. *)
From Coq Require Import Reals Lra Lia.
From Verif.Base Require Import Py.
From Verif.Model Require Galfile.
From Verif.Model Require Import BkgGen ZredColor.
From Verif.Spec Require Import ZredColor.
From Verif.Proofs Require Galfile.
From Verif.Proofs Require Import BkgGen Solver ZredColor.
Local Open Scope R_scope.

(** one galaxy: it gets the documented bad values exactly when no redshift can be given *)
Theorem C48_failed g P k do_corr mag lnd chisq : increasing g -> overflow g -> zg_good g <> [] ->
  (hopeless g mag lnd -> exists o, compute_zred g P k do_corr false mag lnd chisq = Ok o /\ failed_row o) /\
  (~ hopeless g mag lnd -> exists o, compute_zred g P k do_corr false mag lnd chisq = Ok o /\ 5/1000 <= o_unc_e o).
Proof.
  intros Hi Ho Hg. unfold compute_zred.
  destruct (uncorrected_none g P mag lnd chisq Hi Ho Hg) as [Hn He]. split.
  - intros H. rewrite (proj2 Hn H). exists bad_values. repeat split; reflexivity.
  - intros H. destruct (uncorrected g P mag lnd chisq) as [[o|]|e] eqn:E.
    + destruct (uncorrected_some g P mag lnd chisq o Hi Ho E) as (H5 & _).
      cbn [bind]. eexists. split; [reflexivity|]. destruct (do_corr && negb false); exact H5.
    + exfalso. apply H, Hn. reflexivity.
    + exfalso. apply (He e). reflexivity.
Qed.
Print Assumptions C48_failed.

(** without corrections a good galaxy has an error of at least 0.005 and a redshift within two errors
    of a weighted mean of the redshifts of its bins *)
Theorem C48_good g P mag lnd chisq o : increasing g -> overflow g ->
  uncorrected g P mag lnd chisq = Ok (Some o) ->
  5/1000 <= o_zred_e o /\ o_zred o = o_unc o /\
  exists zm, Rabs (o_zred o - zm) < 2 * o_zred_e o /\
     (forall lo, (forall i, weighty g mag lnd i -> lo <= zg_z g i) -> lo <= zm) /\
     (forall hi, (forall i, weighty g mag lnd i -> zg_z g i <= hi) -> zm <= hi).
Proof.
  intros Hi Ho H. destruct (uncorrected_some g P mag lnd chisq o Hi Ho H) as (H1 & H2 & H3 & _ & _ & H6).
  rewrite H2, H3. repeat split; assumption.
Qed.
Print Assumptions C48_good.

(** the error before corrections is the spread of the density, floored: the branch for a negative
    variance is never taken in exact arithmetic *)
Theorem C48_spread g d l : incl_sorted (zg_z g) l -> (forall i, In i l -> 0 < d i) -> l <> [] ->
  zerr g d l = Rmax (5/1000)
     (sqrt (integ g (fun i => d i * (zg_z g i * zg_z g i)) l / integ g d l - zmean g d l * zmean g d l)).
Proof. apply zerr_val. Qed.
Print Assumptions C48_spread.

(** the redshifts within the limits, and the bins: up to ten on either side of them *)
Theorem C48_limits g mag i : In i (limited g mag) <-> within g mag i.
Proof.
  unfold limited, within. rewrite filter_In, in_seq, !andb_true_iff, !Rltb_iff. split; intros H.
  - destruct H as [H1 [[H2 H3] H4]]. repeat split; try assumption; lia.
  - destruct H as [H1 [[H2 H3] H4]]. repeat split; try assumption; lia.
Qed.
Print Assumptions C48_limits.
Theorem C48_evaluated g mag i : (exists a, within g mag a) ->
  (In i (zbins g (limited g mag)) <->
   (i < zg_n g)%nat /\ (exists a, within g mag a /\ (a <= i + 10)%nat) /\ (exists b, within g mag b /\ (i < b + 10)%nat)).
Proof.
  intros [a0 Ha0]. apply C48_limits in Ha0. unfold zbins. rewrite in_seq.
  assert (Hmin : forall a, In a (limited g mag) -> (hd 0 (limited g mag) <= a)%nat /\ (a <= last (limited g mag) 0)%nat).
  { intros a Ha. apply limited_ends, Ha. }
  assert (Hne : limited g mag <> []) by (intros E; rewrite E in Ha0; destruct Ha0).
  assert (Hh : In (hd 0%nat (limited g mag)) (limited g mag)) by (destruct (limited g mag); [congruence|left; reflexivity]).
  assert (Hl : In (last (limited g mag) 0%nat) (limited g mag)).
  { destruct (exists_last Hne) as (l' & x & E). rewrite E, last_last. apply in_or_app. right. left. reflexivity. }
  pose proof (Hmin a0 Ha0) as H0.
  split.
  - intros [H1 H2]. split; [lia|]. split.
    + exists (hd 0%nat (limited g mag)). split; [apply C48_limits, Hh|lia].
    + exists (last (limited g mag) 0%nat). split; [apply C48_limits, Hl|lia].
  - intros (H1 & (a & Ha & H2) & (b & Hb & H3)). apply C48_limits in Ha, Hb.
    pose proof (Hmin a Ha). pose proof (Hmin b Hb). lia.
Qed.
Print Assumptions C48_evaluated.

(** at least two bins are always evaluated, all of them real bins, and every bin within the limits is
    among them *)
Theorem C48_bins g mag : overflow g -> (2 <= length (limited g mag))%nat ->
  (2 <= length (zbins g (limited g mag)))%nat /\
  (forall i, In i (zbins g (limited g mag)) -> (i < zg_n g)%nat) /\
  (forall i, In i (limited g mag) -> In i (zbins g (limited g mag))).
Proof. apply zbins_two. Qed.
Print Assumptions C48_bins.

(** the parabola is fitted to five or six bins, between bins with a real density *)
Theorem C48_window g ln ind l : window g ln ind = Some l ->
  (length l = 5%nat \/ length l = 6%nat) /\
  forall i, In i l -> (i < zg_n g)%nat /\
    exists a b, (a <= i <= b)%nat /\ -10000000000 < ln a /\ -10000000000 < ln b.
Proof. apply window_ok. Qed.
Print Assumptions C48_window.

(** corrections touch only the redshifts and their errors: the uncorrected columns, chi-squared and likelihood are
    those without corrections.  The corrected redshift adds the correction, iterated (at most ten times) until a step
    is at most 0.001; the error is scaled by the table at the corrected redshift. *)
Theorem C48_corrected g P k mag lnd chisq u : compute_zred g P k false false mag lnd chisq = Ok u -> ~ failed_row u ->
  exists o, compute_zred g P k true false mag lnd chisq = Ok o /\
    o_unc o = o_unc u /\ o_unc_e o = o_unc_e u /\ o_chisq o = o_chisq u /\ o_lkhd o = o_lkhd u /\
    o_zred_e o = o_zred_e u * k_r k (o_zred o) /\
    o_zred2 o = o_zred2 u + (k_corr2 k (o_zred2 u) + (mag - k_pivot k (o_zred u)) * k_slope2 k (o_zred2 u)) /\
    o_zred2_e o = o_zred2_e u * k_r2 k (o_zred2 u) /\
    exists n, (1 <= n <= 10)%nat /\ o_zred o = o_zred u + iter n (corr_map k mag (o_zred u)) 0 /\
      (n = 10%nat \/ Rabs (iter (pred n) (corr_map k mag (o_zred u)) 0 - iter n (corr_map k mag (o_zred u)) 0) <= 1/1000).
Proof.
  unfold compute_zred. intros H Hb.
  destruct (uncorrected g P mag lnd chisq) as [[v|]|] eqn:E; cbn [bind andb negb] in *;
    [|injection H as <-; exfalso; apply Hb; repeat split; reflexivity|discriminate].
  injection H as ->. exists (correct_one k mag u). split; [reflexivity|].
  cbn [correct_one o_unc o_unc_e o_chisq o_lkhd o_zred_e o_zred2 o_zred2_e o_zred]. repeat (split; [reflexivity|]).
  destruct (loop_iter 10 k mag (o_zred u) (-1) 0) as (n & Hn & E1 & _ & Hend). exists n.
  assert (H1 : (1 <= n)%nat).
  { destruct n; [|lia]. exfalso. destruct Hend as [Hend|Hend]; [discriminate|]. cbn in Hend.
    rewrite Rabs_left in Hend by lra. lra. }
  split; [lia|]. split; [rewrite E1; reflexivity|].
  destruct Hend as [->|Hend]; [left; reflexivity|right]. destruct n; [lia|]. exact Hend.
Qed.
Print Assumptions C48_corrected.
(** ... and in bulk: five steps, the uncorrected columns, chi-squared and likelihood are kept *)
Theorem C48_bulk_corrected k mag u :
  let o := correct_bulk k mag u in
  o_unc o = o_unc u /\ o_unc_e o = o_unc_e u /\ o_chisq o = o_chisq u /\ o_lkhd o = o_lkhd u /\
  o_zred o = o_unc u + iter 5 (corr_map k mag (o_unc u)) 0 /\ o_zred_e o = o_unc_e u * k_r k (o_zred o) /\
  o_zred2_e o = o_unc_e u * k_r2 k (o_unc u).
Proof. cbv zeta. cbn [correct_bulk o_unc o_unc_e o_chisq o_lkhd o_zred o_zred_e o_zred2_e]. repeat split; rewrite bulk_iter; reflexivity. Qed.
Print Assumptions C48_bulk_corrected.

(** corrected errors: the floor is multiplied by the table, so the corrected error can be below it *)
Theorem C48_corrected_floor g P k mag lnd chisq o : increasing g -> overflow g ->
  compute_zred g P k true false mag lnd chisq = Ok o -> ~ failed_row o -> (forall z, 0 <= k_r k z) ->
  k_r k (o_zred o) * (5/1000) <= o_zred_e o.
Proof.
  intros Hi Ho H Hb Hr. unfold compute_zred in H.
  destruct (uncorrected g P mag lnd chisq) as [[u|]|] eqn:E; cbn [bind] in H; [|injection H as <-; exfalso; apply Hb; repeat split; reflexivity|discriminate].
  injection H as <-. destruct (uncorrected_some g P mag lnd chisq u Hi Ho E) as (H1 & _ & H3 & _).
  cbn. rewrite H3, Rmult_comm. apply Rmult_le_compat_r; [apply Hr|exact H1].
Qed.
Print Assumptions C48_corrected_floor.
(** Finding: a good galaxy can have a corrected error below 0.005. *)
Theorem C48_corrected_floor_refuted : exists k mag o, o_zred_e o = 5/1000 /\ o_zred_e (correct_one k mag o) < 5/1000.
Proof.
  exists {| k_pivot := fun _ => 0; k_corr := fun _ => 0; k_slope := fun _ => 0; k_r := fun _ => 1/2;
            k_corr2 := fun _ => 0; k_slope2 := fun _ => 0; k_r2 := fun _ => 1 |}, 20,
         {| o_zred := 1/2; o_zred_e := 5/1000; o_zred2 := 1/2; o_zred2_e := 5/1000; o_unc := 1/2; o_unc_e := 5/1000; o_chisq := 1; o_lkhd := 0 |}.
  cbn. lra.
Qed.
Print Assumptions C48_corrected_floor_refuted.

(** a whole catalog: one row per galaxy, in order; without corrections each is the row of the galaxy alone *)
Theorem C48_bulk_rows g P k do_corr gs : increasing g -> overflow g -> zg_good g <> [] ->
  exists os, compute_zreds g P k do_corr gs = Ok os /\ length os = length gs /\
  forall i x, nth_error gs i = Some x -> exists u, 
    alone g P k false x = Ok u /\ nth_error os i = Some (if do_corr then correct_bulk k (zx_mag x) u else u).
Proof.
  intros Hi Ho Hg.
  assert (Hok : forall x, exists u, compute_zred g P k do_corr true (zx_mag x) (zx_lnd x) (zx_chisq x) = Ok u /\ alone g P k false x = Ok u).
  { intros x. unfold alone, compute_zred.
    destruct (uncorrected_none g P (zx_mag x) (zx_lnd x) (zx_chisq x) Hi Ho Hg) as [_ He].
    destruct (uncorrected g P (zx_mag x) (zx_lnd x) (zx_chisq x)) as [[u|]|e] eqn:E; cbn [bind].
    - exists u. rewrite Bool.andb_false_r. split; reflexivity.
    - exists bad_values. split; reflexivity.
    - exfalso. apply (He e). reflexivity. }
  unfold compute_zreds.
  set (h := fun x => match compute_zred g P k do_corr true (zx_mag x) (zx_lnd x) (zx_chisq x) with Ok u => (x, u) | Err _ => (x, bad_values) end).
  rewrite (Galfile.mapM_map _ h).
  2: { intros x _. unfold h. destruct (Hok x) as (u & -> & _). reflexivity. }
  cbn [bind]. eexists. split; [reflexivity|]. rewrite !map_length. split; [reflexivity|].
  intros i x Hx. destruct (Hok x) as (u & E1 & E2). exists u. split; [exact E2|].
  rewrite nth_error_map, nth_error_map, Hx. cbn. unfold h. rewrite E1. reflexivity.
Qed.
Print Assumptions C48_bulk_rows.

(** bulk corrections: always five steps; alone: up to ten, until a step is at most 0.001.  They differ
    by at most 0.001 when the correction is a contraction and small *)
Theorem C48_bulk_close_partial k mag o : o_zred o = o_unc o ->
  (forall a b, Rabs (corr_map k mag (o_unc o) a - corr_map k mag (o_unc o) b) <= Rabs (a - b) / 2) ->
  Rabs (corr_map k mag (o_unc o) 0) <= 16/1000 ->
  Rabs (o_zred (correct_one k mag o) - o_zred (correct_bulk k mag o)) <= 1/1000.
Proof.
  intros Hz HF H0. cbn [correct_one correct_bulk o_zred]. rewrite Hz.
  pose proof (loop_bulk_close k mag (o_unc o) HF H0) as H.
  match goal with |- Rabs ?x <= _ => replace x with (dz_loop 10 k mag (o_unc o) (k_pivot k (o_unc o)) (-1) 0 - dz_bulk 5 k mag (o_unc o) (k_pivot k (o_unc o)) 0) by ring end.
  exact H.
Qed.
Print Assumptions C48_bulk_close_partial.
(** … and in general they do not agree *)
Definition k_half : zcorr :=
  {| k_pivot := fun _ => 0; k_corr := fun z => z / 2; k_slope := fun _ => 0; k_r := fun _ => 1;
     k_corr2 := fun _ => 0; k_slope2 := fun _ => 0; k_r2 := fun _ => 1 |}.
Definition o_one : zout :=
  {| o_zred := 1/10; o_zred_e := 1/100; o_zred2 := 1/10; o_zred2_e := 1/100; o_unc := 1/10; o_unc_e := 1/100; o_chisq := 1; o_lkhd := 0 |}.
(** ... and in general they do not agree *)
Theorem C48_bulk_refuted : exists k mag o, o_zred o = o_unc o /\ o_zred (correct_one k mag o) <> o_zred (correct_bulk k mag o).
Proof.
  exists k_half, 20, o_one. split; [reflexivity|].
  cbn [correct_one correct_bulk o_zred o_one o_unc k_half k_pivot].
  destruct (loop_iter 10 k_half 20 (1/10) (-1) 0) as (n & Hn & E & Hbig & Hend). cbn [k_half k_pivot] in E.
  rewrite E.
  assert (Hit : forall j, iter j (corr_map k_half 20 (1/10)) 0 = 1/10 - 1/10 / 2 ^ j).
  { intros j. induction j as [|j IH]; [cbn; field|]. rewrite iter_S, IH. unfold corr_map. cbn. field. apply pow_nonzero. lra. }
  assert (Hbulk : dz_bulk 5 k_half 20 (1/10) 0 0 = 1/10 - 1/10 / 2 ^ 5).
  { change 0 with (k_pivot k_half (1/10)) at 1. rewrite bulk_iter. apply Hit. }
  rewrite Hbulk, Hit.
  assert (Hn5 : (5 < n)%nat).
  { destruct (Nat.le_gt_cases n 5) as [Hle|]; [|assumption]. exfalso.
    destruct Hend as [->|Hend]; [lia|]. rewrite Hit in Hend.
    destruct n as [|n]; [rewrite Rabs_left in Hend; cbn in Hend; lra|]. rewrite Hit in Hend.
    rewrite Rabs_left in Hend;
      assert (n = 0 \/ n = 1 \/ n = 2 \/ n = 3 \/ n = 4)%nat as Hc by lia;
      destruct Hc as [->|[->|[->|[->| ->]]]]; cbn in Hend |- *; lra. }
  intros Heq. assert (H : / 2 ^ n = / 2 ^ 5) by lra.
  assert (Hp : 2 ^ 5 < 2 ^ n) by (apply Rlt_pow; [lra|exact Hn5]).
  assert (E2 : 2 ^ n = 2 ^ 5) by (rewrite <- (Rinv_inv (2 ^ n)), H; apply Rinv_inv). lra.
Qed.
Print Assumptions C48_bulk_refuted.
(** the second redshift never gets its magnitude term in bulk *)
Theorem C48_zred2_refuted k mag o : o_zred o = o_unc o -> o_zred2 o = o_unc o ->
  o_zred2 (correct_one k mag o) - o_zred2 (correct_bulk k mag o)
  = (mag - k_pivot k (o_unc o)) * k_slope2 k (o_unc o).
Proof. intros H1 H2. cbn. rewrite H1, H2. ring. Qed.
Print Assumptions C48_zred2_refuted.
(** a failed galaxy in a corrected catalog does not keep the bad values: the corrections at z = -1
    are added to them *)
Theorem C48_bulk_failed_refuted g P k gs i x : increasing g -> overflow g -> zg_good g <> [] ->
  nth_error gs i = Some x -> hopeless g (zx_mag x) (zx_lnd x) ->
  exists os o, compute_zreds g P k true gs = Ok os /\ nth_error os i = Some o /\
    o_zred o = -1 + dz_bulk 5 k (zx_mag x) (-1) (k_pivot k (-1)) 0 /\
    o_zred_e o = - k_r k (o_zred o) /\ o_zred2 o = -1 + k_corr2 k (-1) /\ o_zred2_e o = - k_r2 k (-1) /\
    o_unc o = -1 /\ o_unc_e o = -1.
Proof.
  intros Hi Ho Hg Hx Hh. destruct (C48_bulk_rows g P k true gs Hi Ho Hg) as (os & E & _ & H).
  destruct (H i x Hx) as (u & Hu & Hn).
  destruct (proj1 (C48_failed g P k false (zx_mag x) (zx_lnd x) (zx_chisq x) Hi Ho Hg) Hh) as (v & Hv & Hf).
  unfold alone in Hu. rewrite Hv in Hu. injection Hu as <-. destruct Hf as (_ & _ & _ & _ & F5 & F6 & _ & _).
  exists os, (correct_bulk k (zx_mag x) v). split; [exact E|split; [exact Hn|]]. cbn. rewrite F5, F6.
  repeat split; lra.
Qed.
Print Assumptions C48_bulk_failed_refuted.

(** non-vacuity: a grid of three bins and the overflow bin *)
Definition g_ex : zgrid :=
  {| zg_n := 3; zg_z := fun i => if Nat.ltb i 3 then INR i / 10 + 1/10 else 1000; zg_min := fun _ => 10; zg_max := fun _ => 25; zg_good := [0;1;2]%nat |}.
Example g_ex_ok : increasing g_ex /\ overflow g_ex /\ zg_good g_ex <> [] /\ length (limited g_ex 20) = 3%nat.
Proof.
  split; [|split; [|split]].
  - intros i j Hij. cbn in *.
    assert (i = 0 \/ i = 1 \/ i = 2)%nat as [->|[->| ->]] by lia;
    assert (j = 1 \/ j = 2 \/ j = 3)%nat as [->|[->| ->]] by lia; cbn; try lia; lra.
  - unfold overflow. cbn. lra.
  - discriminate.
  - unfold limited. cbn [zg_n g_ex zg_min zg_max zg_z Nat.add seq filter].
    assert (E : forall x y, x < y -> Rltb x y = true) by (intros; apply Rltb_iff; assumption).
    rewrite (E 20 25), (E 10 20) by lra. cbn [andb Nat.ltb Nat.leb].
    rewrite (E (INR 0 / 10 + 1 / 10) 100), (E (INR 1 / 10 + 1 / 10) 100), (E (INR 2 / 10 + 1 / 10) 100) by (cbn; lra).
    rewrite (proj2 (Rltb_false 1000 100)) by lra. reflexivity.
Qed.

(** The chi-squared kept is that of the point of the grid nearest to the redshift, its last point included, the first of
    them when two are as near; a point outside the evaluated bins gives 1e12. *)
Theorem C48_nearest g P mag lnd chisq o : uncorrected g P mag lnd chisq = Ok (Some o) ->
  exists b, (b <= zg_n g)%nat /\ (forall i, (i <= zg_n g)%nat -> Rabs (o_zred o - zg_z g b) <= Rabs (o_zred o - zg_z g i)) /\
    (forall i, (i < b)%nat -> Rabs (o_zred o - zg_z g b) < Rabs (o_zred o - zg_z g i)) /\
    (In b (zbins g (limited g mag)) -> o_chisq o = chisq b) /\ (~ In b (zbins g (limited g mag)) -> o_chisq o = 1000000000000).
Proof.
  unfold uncorrected. destruct (Nat.ltb (length (limited g mag)) 2); [discriminate|]. destruct (peak _ _) as [ind|]; [|discriminate]. cbn [bind].
  destruct (lkhd _ _ _ _ _) as [lk|]; [|discriminate]. intros H. injection H as <-. cbn [o_zred o_chisq].
  set (z := refine _ _ _ _). exists (near_bin g z).
  assert (A : forall f n k best, (best < k)%nat -> (forall i, (i < k)%nat -> f best <= f i) -> (forall i, (i < best)%nat -> f best < f i) ->
    let b := argmin_from f best (seq k n) in (b < k + n)%nat /\ (forall i, (i < k + n)%nat -> f b <= f i) /\ (forall i, (i < b)%nat -> f b < f i)).
  { intros f n. induction n as [|n IH]; intros k best L M F; cbn [seq argmin_from].
    - rewrite Nat.add_0_r. auto.
    - destruct (Rltb (f k) (f best)) eqn:E.
      + apply Rltb_iff in E. destruct (IH (S k) k) as (X1 & X2 & X3); [lia| | |].
        * intros i Hi. destruct (Nat.eq_dec i k) as [->|D]; [lra|]. pose proof (M i ltac:(lia)). lra.
        * intros i Hi. pose proof (M i Hi). lra.
        * rewrite <- Nat.add_succ_comm. auto.
      + assert (E' : f best <= f k). { destruct (Rle_or_lt (f best) (f k)) as [Q|Q]; [exact Q|]. apply Rltb_iff in Q. congruence. }
        destruct (IH (S k) best) as (X1 & X2 & X3); [lia| |exact F|].
        * intros i Hi. destruct (Nat.eq_dec i k) as [->|D]; [exact E'|]. apply M. lia.
        * rewrite <- Nat.add_succ_comm. auto. }
  destruct (A (fun i => Rabs (z - zg_z g i)) (zg_n g) 1%nat 0%nat) as (X1 & X2 & X3); [lia| |intros i Hi; lia|].
  { intros i Hi. assert (i = 0%nat) as -> by lia. lra. }
  split; [unfold near_bin; lia|]. split; [intros i Hi; apply X2; lia|]. split; [exact X3|]. split; intros N.
  - apply mem_iff in N. rewrite N. reflexivity.
  - destruct (mem _ (near_bin g z)) eqn:E; [|reflexivity]. apply mem_iff in E. contradiction.
Qed.
Print Assumptions C48_nearest.
(** The points of the parabola: five around the peak, the first five at the lower end, the last six at the upper end. *)
Theorem C48_window_where g ln ind a b : (b < zg_n g)%nat -> (a + 5 <= b)%nat -> (forall i, (i < zg_n g)%nat -> (-10000000000 < ln i <-> (a <= i <= b)%nat)) ->
  (a <= ind <= b)%nat ->
  window g ln ind = Some (if Nat.leb ind (a + 2) then seq a 5 else if Nat.leb b (ind + 2) then seq (b - 5) 6 else seq (ind - 2) 5).
Proof.
  intros Hb Hab H Hi. unfold window.
  assert (F : filter (fun i => Rltb (-10000000000) (ln i)) (seq 0 (zg_n g)) = seq a (b + 1 - a)).
  { assert (E : seq 0 (zg_n g) = (seq 0 a ++ seq a (b + 1 - a) ++ seq (b + 1) (zg_n g - (b + 1)))%list).
    { replace (seq (b + 1) (zg_n g - (b + 1))) with (seq (a + (b + 1 - a)) (zg_n g - (b + 1))) by (f_equal; lia).
      rewrite <- seq_app. change (seq a) with (seq (0 + a)). rewrite <- seq_app. f_equal. lia. }
    rewrite E, !filter_app.
    assert (X : forall l, (forall i, In i l -> (i < zg_n g)%nat /\ ~ (a <= i <= b)%nat) -> filter (fun i => Rltb (-10000000000) (ln i)) l = []).
    { induction l as [|x l IH]; intros N; [reflexivity|]. cbn [filter]. destruct (N x (or_introl eq_refl)) as (N1 & N2).
      destruct (Rltb (-10000000000) (ln x)) eqn:Q; [|apply IH; intros i I; apply N; right; exact I]. apply Rltb_iff in Q. apply (H x N1) in Q. contradiction. }
    assert (Y : forall l, (forall i, In i l -> (a <= i <= b)%nat) -> filter (fun i => Rltb (-10000000000) (ln i)) l = l).
    { induction l as [|x l IH]; intros N; [reflexivity|]. cbn [filter]. pose proof (N x (or_introl eq_refl)) as N1.
      assert (Q : -10000000000 < ln x) by (apply H; lia). apply Rltb_iff in Q. rewrite Q. f_equal. apply IH. intros i I. apply N. right. exact I. }
    rewrite X, Y, X; [rewrite app_nil_r; reflexivity| | |]; intros i I; apply in_seq in I; lia. }
  rewrite F, seq_length. destruct (Nat.leb_spec 5 (b + 1 - a)); [|lia].
  assert (Hh : hd O (seq a (b + 1 - a)) = a). { destruct (b + 1 - a)%nat eqn:Q; [lia|reflexivity]. }
  assert (Hl : last (seq a (b + 1 - a)) O = b). { replace (b + 1 - a)%nat with (S (b - a)) by lia. rewrite seq_S, last_last. lia. }
  rewrite Hh, Hl.
  assert (W : forall s n, (0 <= s)%Z -> map Z.to_nat (map (fun k => (s + Z.of_nat k)%Z) (seq 0 n)) = seq (Z.to_nat s) n).
  { intros s n Hs. rewrite map_map. assert (V : forall m k, map (fun x => Z.to_nat (s + Z.of_nat x)) (seq k m) = seq (Z.to_nat s + k) m).
    { induction m as [|m IH]; intros k; [reflexivity|]. cbn [seq map]. rewrite IH. f_equal; [lia|]. f_equal. lia. }
    rewrite V. f_equal. lia. }
  destruct (Z.gtb_spec (Z.of_nat a) (Z.of_nat ind - 2)) as [G|G]; destruct (Z.ltb_spec (Z.of_nat b) (Z.of_nat ind + 2)) as [T|T];
    destruct (Nat.leb_spec ind (a + 2)) as [U|U]; try lia; rewrite ?Z.eqb_refl;
    rewrite ?(proj2 (Z.eqb_eq (Z.of_nat ind - 2) (Z.of_nat a))) by lia; rewrite ?(proj2 (Z.eqb_neq (Z.of_nat ind - 2) (Z.of_nat a))) by lia.
  all: rewrite ?Z.min_l by lia; rewrite ?Z.max_l by lia.
  all: try (destruct (Nat.leb_spec b (ind + 2)) as [V|V]; try lia).
  all: rewrite ?(proj2 (Z.eqb_eq (Z.of_nat ind + 2) (Z.of_nat b))) by lia; rewrite ?(proj2 (Z.eqb_neq (Z.of_nat ind + 2) (Z.of_nat b))) by lia; rewrite ?Z.max_l by lia.
  all: match goal with |- context [(5 <=? ?x)%Z] => destruct (Z.leb_spec 5 x) as [Y|Y]; [|lia] end.
  all: rewrite W by lia; f_equal; f_equal; lia.
Qed.
Print Assumptions C48_window_where.
Example C48_window_ex : let g := {| zg_n := 20; zg_z := INR; zg_min := fun _ => 0; zg_max := fun _ => 30; zg_good := [] |} in
  window g (fun i => if Nat.leb 3 i && Nat.leb i 15 then 0 else -100000000000) 9 = Some [7; 8; 9; 10; 11]%nat /\
  window g (fun i => if Nat.leb 3 i && Nat.leb i 15 then 0 else -100000000000) 14 = Some [10; 11; 12; 13; 14; 15]%nat.
Proof.
  assert (H : forall i, (i < 20)%nat -> (-10000000000 < (if Nat.leb 3 i && Nat.leb i 15 then 0 else -100000000000) <-> (3 <= i <= 15)%nat)).
  { intros i _. destruct (Nat.leb_spec 3 i); destruct (Nat.leb_spec i 15); cbn [andb]; split; intros; lra || lia. }
  split; rewrite (C48_window_where _ _ _ 3 15); try exact H; cbn; try lia; reflexivity.
Qed.
