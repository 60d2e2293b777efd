(** C178: the luminosity filter and its normalisation. *)
From Coq Require Import Reals Lra.
From Verif.Base Require Import Py PyLemmas.
From Verif.Model Require Import BkgGen Depth Profile RedSamp LumNorm.
From Verif.Spec Require Import LumNorm.
From Verif.Proofs Require Import BkgGen Solver Depth RedSamp LumNorm.
From Coq Require Import Lia List. Import ListNotations.
Local Open Scope R_scope.

(** The table reaches from the first magnitude to a tenth of the characteristic luminosity at the largest redshift, in steps of 0.01. *)
Theorem C178_table b0 ms : let top := ms - 25/10 * log10 (1/10) in let n := n_lum b0 ms in
  (IZR b0 < top -> (0 < n)%nat /\ IZR b0 + INR (n - 1) / 100 < top <= IZR b0 + INR n / 100) /\ (top <= IZR b0 -> forall alpha mstar mag m, calc_luminosity b0 n alpha mstar mag m = Err IndexError).
Proof.
  cbv zeta. unfold n_lum. set (top := ms - 25/10 * log10 (1/10)). set (c := ceilR ((top - IZR b0) / (1/100))). destruct (ceil_spec ((top - IZR b0) / (1/100))) as [A B]. fold c in A, B. replace ((top - IZR b0) / (1/100)) with ((top - IZR b0) * 100) in A, B by field. split.
  - intros L. assert (C : (0 < c)%Z) by (apply lt_IZR; lra). assert (E : INR (Z.to_nat c) = IZR c) by (rewrite INR_IZR_INZ, Z2Nat.id by lia; reflexivity). split; [lia|]. rewrite minus_INR by lia. rewrite E. cbn [INR]. lra.
  - intros L alpha mstar mag m. assert (C : (c <= 0)%Z) by (apply Z.lt_succ_r, lt_IZR; unfold Z.succ; rewrite plus_IZR; lra). replace (Z.to_nat c) with O by lia. reflexivity.
Qed.
Print Assumptions C178_table.
(** The filter is defined and positive for any limit up to magnitude 1000; with a limit within the table it is, in steps of 0.01 from the first magnitude to the limit (to 0.005), normalised to one. *)
Theorem C178_unit b0 n alpha mstar normmag : (0 < n)%nat -> normmag <= 1000 -> exists phi, filter_is b0 n alpha mstar normmag phi /\ (forall m, 0 < phi m) /\
  (forall m m', phi m / phi m' = schechter alpha mstar m / schechter alpha mstar m') /\
  (IZR b0 <= normmag <= IZR b0 + INR (n - 1) / 100 -> exists k, (k < n)%nat /\ Rabs (IZR b0 + INR k / 100 - normmag) <= 5/1000 /\ binned b0 phi k = 1).
Proof.
  intros N M. destruct (norm_spec b0 n alpha mstar N) as (t & T & L & A & B). set (i := lum_index b0 n normmag). assert (I : i = Z.to_nat (Z.min (Z.max 0 (roundR (normmag * 100) - 100 * b0)) (Z.of_nat n))) by (apply index_spec, M).
  assert (V : exists v, nth_error t i = Some v /\ 0 < v). { assert (PB : forall k, 0 < binned b0 (schechter alpha mstar) k) by (intros k; apply binned_pos; intros x; apply schechter_pos).
    destruct (Nat.lt_ge_cases i n) as [H|H]; [exists (binned b0 (schechter alpha mstar) i); split; [apply A, H|apply PB]|]. assert (E : i = n) by lia. rewrite E. eexists. split; [exact B|]. pose proof (PB (n - 1)%nat). pose proof (schechter_pos alpha mstar (lum_bin b0 (n - 1))). lra. }
  destruct V as (v & V1 & V2). exists (fun m => schechter alpha mstar m / v). split; [intros m; unfold calc_luminosity; rewrite T; cbn [bind]; fold i; rewrite V1; reflexivity|]. split; [intros m; apply Rdiv_lt_0_compat; [apply schechter_pos|exact V2]|].
  split; [intros m m'; pose proof (schechter_pos alpha mstar m'); field; split; lra|]. intros [R1 R2].
  assert (Z1 : (100 * b0 <= roundR (normmag * 100))%Z). { rewrite <- (round_int (100 * b0)). apply round_mono. rewrite mult_IZR. lra. }
  assert (Z2 : (roundR (normmag * 100) <= 100 * b0 + Z.of_nat (n - 1))%Z). { rewrite <- (round_int (100 * b0 + Z.of_nat (n - 1))). apply round_mono. rewrite plus_IZR, mult_IZR, <- INR_IZR_INZ. lra. }
  exists i. assert (IN : (i < n)%nat) by lia. split; [exact IN|]. split.
  - assert (E : INR i = IZR (roundR (normmag * 100)) - 100 * IZR b0). { rewrite INR_IZR_INZ. replace (Z.of_nat i) with (roundR (normmag * 100) - 100 * b0)%Z by lia. rewrite minus_IZR, mult_IZR. reflexivity. }
    rewrite E. pose proof (round_near (normmag * 100)) as P. apply Rabs_le_inv in P. apply Rabs_le. lra.
  - rewrite binned_scale by lra. assert (Ev : v = binned b0 (schechter alpha mstar) i) by (rewrite (A i IN) in V1; congruence). rewrite <- Ev. field. lra.
Qed.
Print Assumptions C178_unit.
(** For a faint-end slope of -1 or steeper that is the integral of the filter, to one part in the step: from the first magnitude to the limit the integral is at most one, and less than one by no more than 0.01 of the
    filter at the limit. *)
Theorem C178_integral b0 n alpha mstar normmag : (0 < n)%nat -> alpha <= -1 -> IZR b0 <= normmag <= IZR b0 + INR (n - 1) / 100 -> normmag <= 1000 ->
  exists phi lim, filter_is b0 n alpha mstar normmag phi /\ Rabs (lim - normmag) <= 5/1000 /\ forall F, (forall x, IZR b0 <= x <= lim -> derivable_pt_lim F x (phi x)) -> 1 - phi lim / 100 <= F lim - F (IZR b0) <= 1.
(* such an F exists: C178_primitive *)
Proof.
  intros N A R M. destruct (C178_unit b0 n alpha mstar normmag N M) as (phi & F1 & P & Q & U). destruct (U R) as (k & K & D & E). exists phi, (IZR b0 + INR k / 100). split; [exact F1|]. split; [exact D|].
  intros F HF. assert (Mono : forall x y, x <= y -> phi x <= phi y).
  { intros x y L. specialize (Q x y). pose proof (P y) as Py. pose proof (P x) as Px. pose proof (schechter_pos alpha mstar y) as Sy. pose proof (schechter_mono alpha mstar x y A L) as Sm.
    assert (X : phi x / phi y <= 1). { rewrite Q. apply Rmult_le_reg_r with (schechter alpha mstar y); [exact Sy|]. replace (schechter alpha mstar x / schechter alpha mstar y * schechter alpha mstar y) with (schechter alpha mstar x) by (field; lra). lra. }
    assert (Y : phi x = phi x / phi y * phi y) by (field; lra). rewrite Y. nra. }
  pose proof (between phi F b0 k HF Mono (fun x => Rlt_le _ _ (P x))) as B. lra.
Qed.
Print Assumptions C178_integral.
(** The filter has an integral. *)
Theorem C178_primitive b0 n alpha mstar normmag lo hi : (0 < n)%nat -> normmag <= 1000 -> lo <= hi -> exists phi F, filter_is b0 n alpha mstar normmag phi /\ forall x, lo <= x <= hi -> derivable_pt_lim F x (phi x).
Proof.
  intros N M H. destruct (C178_unit b0 n alpha mstar normmag N M) as (phi & F1 & P & Q & _). set (v := schechter alpha mstar 0 / phi 0). assert (E : forall m, phi m = schechter alpha mstar m / v).
  { intros m. specialize (Q m 0). pose proof (P 0) as P0. pose proof (schechter_pos alpha mstar 0) as S0. unfold v. assert (X : phi m = phi m / phi 0 * phi 0) by (field; lra). rewrite X, Q. field. split; lra. }
  destruct (filter_primitive alpha mstar v lo hi H) as [F HF]. exists (fun m => schechter alpha mstar m / v), F. split; [intros m; rewrite (F1 m), E; reflexivity|exact HF].
Qed.
Print Assumptions C178_primitive.
(** Finding: a limit beyond the end of the table is not an error: the filter is then normalised as if the limit was at the end of the table (with the last magnitude counted twice), whatever the limit; the table ends at a tenth of
    the characteristic luminosity at the largest redshift. *)
Theorem C178_beyond_refuted b0 n alpha mstar mag mag' : (0 < n)%nat -> IZR b0 + INR n / 100 <= mag <= 1000 -> IZR b0 + INR n / 100 <= mag' <= 1000 -> exists phi, filter_is b0 n alpha mstar mag phi /\ filter_is b0 n alpha mstar mag' phi /\
  binned b0 phi (n - 1) + phi (IZR b0 + INR (n - 1) / 100) / 100 = 1.
Proof.
  intros N M M'. destruct (norm_spec b0 n alpha mstar N) as (t & T & L & A & B). assert (I : forall x, IZR b0 + INR n / 100 <= x <= 1000 -> lum_index b0 n x = n).
  { intros x [X1 X2]. rewrite index_spec by exact X2. assert (Z : (100 * b0 + Z.of_nat n <= roundR (x * 100))%Z). { rewrite <- (round_int (100 * b0 + Z.of_nat n)). apply round_mono. rewrite plus_IZR, mult_IZR, <- INR_IZR_INZ. lra. } lia. }
  set (v := binned b0 (schechter alpha mstar) (n - 1) + schechter alpha mstar (lum_bin b0 (n - 1)) / 100) in *. assert (V : 0 < v). { unfold v. pose proof (binned_pos b0 (schechter alpha mstar) (n - 1) (schechter_pos alpha mstar)). pose proof (schechter_pos alpha mstar (lum_bin b0 (n - 1))). lra. }
  exists (fun m => schechter alpha mstar m / v). split; [|split].
  - intros m. unfold calc_luminosity. rewrite T. cbn [bind]. rewrite (I mag M), B. reflexivity.
  - intros m. unfold calc_luminosity. rewrite T. cbn [bind]. rewrite (I mag' M'), B. reflexivity.
  - rewrite binned_scale by lra. replace (IZR b0 + INR (n - 1) / 100) with (lum_bin b0 (n - 1)) by (unfold lum_bin; field).
    transitivity (v / v); [|field; lra]. unfold v at 3. field. lra.
Qed.
Print Assumptions C178_beyond_refuted.
(** A fainter limit within the table makes the filter smaller everywhere. *)
Theorem C178_fainter b0 n alpha mstar mag mag' phi phi' m : (0 < n)%nat -> mag <= mag' -> mag' <= 1000 -> filter_is b0 n alpha mstar mag phi -> filter_is b0 n alpha mstar mag' phi' -> phi' m <= phi m.
Proof.
  intros N L M F F'. specialize (F m). specialize (F' m). unfold calc_luminosity in *. destruct (norm_spec b0 n alpha mstar N) as (t & T & Lt & A & B). rewrite T in F, F'. cbn [bind] in F, F'. rewrite index_spec in F by lra. rewrite index_spec in F' by exact M.
  pose proof (round_mono (mag * 100) (mag' * 100) ltac:(lra)) as Rm. set (i := Z.to_nat _) in F. set (j := Z.to_nat _) in F'. assert (IJ : (i <= j <= n)%nat) by lia. clearbody i j.
  assert (PB : forall k, 0 < binned b0 (schechter alpha mstar) k) by (intros k; apply binned_pos; intros x; apply schechter_pos).
  assert (MB : forall a b, (a <= b)%nat -> binned b0 (schechter alpha mstar) a <= binned b0 (schechter alpha mstar) b). { intros a b H. induction H as [|b H IH]; [lra|]. unfold binned in *. rewrite tech5. pose proof (schechter_pos alpha mstar (IZR b0 + INR (S b) / 100)). lra. }
  assert (G : exists v w, nth_error t i = Some v /\ nth_error t j = Some w /\ 0 < v <= w).
  { pose proof (schechter_pos alpha mstar (lum_bin b0 (n - 1))) as Sp. destruct (Nat.lt_ge_cases j n) as [H|H].
    - exists (binned b0 (schechter alpha mstar) i), (binned b0 (schechter alpha mstar) j). rewrite (A i), (A j) by lia. repeat split; [apply PB|apply MB; lia].
    - assert (Ej : j = n) by lia. rewrite Ej. destruct (Nat.lt_ge_cases i n) as [K|K].
      + eexists _, _. rewrite (A i) by lia. split; [reflexivity|]. split; [exact B|]. pose proof (PB i). pose proof (MB i (n - 1)%nat ltac:(lia)). lra.
      + assert (Ei : i = n) by lia. rewrite Ei. eexists _, _. split; [exact B|]. split; [exact B|]. pose proof (PB (n - 1)%nat). lra. }
  destruct G as (v & w & V & W & V0 & VW). rewrite V in F. rewrite W in F'. injection F as <-. injection F' as <-. unfold Rdiv. apply Rmult_le_compat_l; [apply Rlt_le, schechter_pos|]. apply Rinv_le_contravar; assumption.
Qed.
Print Assumptions C178_fainter.
(** With a reference luminosity of at least a tenth, and a characteristic magnitude that is not fainter than that at the largest redshift, the limit of a cluster is not beyond the end of the table. *)
Theorem C178_reference b0 ms mstar lval : 1/10 <= lval -> mstar <= ms -> IZR b0 < ms - 25/10 * log10 (1/10) -> maxmag mstar lval <= IZR b0 + INR (n_lum b0 ms) / 100.
Proof.
  intros H L T. destruct (proj1 (C178_table b0 ms) T) as (_ & _ & U). unfold maxmag. assert (G : log10 (1/10) <= log10 lval). { unfold log10. pose proof ln10_pos. unfold Rdiv at 1 3. apply Rmult_le_compat_r; [apply Rlt_le, Rinv_0_lt_compat; assumption|]. destruct H as [H| <-]; [apply Rlt_le, ln_increasing; lra|apply Rle_refl]. } lra.
Qed.
Print Assumptions C178_reference.
(** The filter of a mask galaxy depends on its luminosity alone: L^(alpha+1) exp(-L), and its weight is proportional to it. *)
Theorem C178_mask simpson alpha lval m : fst (mask_lum simpson alpha lval m) = schechter alpha 0 m /\ (forall mstar, fst (mask_lum simpson alpha lval m) = schechter alpha mstar (mstar + m)) /\
  ((forall l, 0 < simpson l) -> forall m', 0 < snd (mask_lum simpson alpha lval m) /\ snd (mask_lum simpson alpha lval m) / snd (mask_lum simpson alpha lval m') = fst (mask_lum simpson alpha lval m) / fst (mask_lum simpson alpha lval m')).
Proof.
  assert (G : forall a b x, schechter alpha a (x + a) = schechter alpha b (x + b)) by (intros a b x; unfold schechter; replace (a - (x + a)) with (b - (x + b)) by ring; reflexivity).
  unfold mask_lum. cbv zeta. cbn [fst snd]. split; [rewrite (G 19 0 m), Rplus_0_r; reflexivity|]. split; [intros mstar; rewrite (Rplus_comm mstar m); apply G|]. intros S m'. set (l := map _ _). pose proof (S l) as Sl. pose proof (schechter_pos alpha 19 (m + 19)). pose proof (schechter_pos alpha 19 (m' + 19)).
  split; [apply Rdiv_lt_0_compat; assumption|]. field. repeat split; lra.
Qed.
Print Assumptions C178_mask.
(** That weight is the filter over the integral of the filter at a characteristic magnitude of 19, on steps of 0.01 from 10 up to, but not, the limit of the cluster's galaxies. *)
Theorem C178_mask_norm simpson alpha lval m : exists steps, snd (mask_lum simpson alpha lval m) = fst (mask_lum simpson alpha lval m) / simpson (map (schechter alpha 19) steps) /\
  (forall i x, nth_error steps i = Some x -> x = 10 + INR i / 100 /\ x < 19 - 25/10 * log10 lval) /\ 19 - 25/10 * log10 lval <= 10 + INR (List.length steps) / 100.
Proof.
  unfold mask_lum, maxmag. cbv zeta. set (top := 19 - 25/10 * log10 lval). set (n := Z.to_nat _). exists (map (lum_bin 10) (seq 0 n)). split; [reflexivity|].
  assert (C : top <= 10 + INR n / 100 /\ (forall i, (i < n)%nat -> 10 + INR i / 100 < top)).
  { destruct (ceil_spec ((top - 10) / (1/100))) as [C1 C2]. fold n. set (c := ceilR _) in *. split.
    - assert (IZR c <= INR n) by (unfold n; fold c; rewrite INR_IZR_INZ; apply IZR_le; lia). lra.
    - intros i I. assert (INR i <= IZR c - 1) by (unfold n in I; fold c in I; rewrite INR_IZR_INZ, <- minus_IZR; apply IZR_le; lia). lra. }
  destruct C as [C1 C2]. split; [|rewrite map_length, seq_length; exact C1].
  intros i x N. rewrite nth_error_map in N. destruct (nth_error (seq 0 n) i) as [j|] eqn:E; [|discriminate]. cbn [option_map] in N. injection N as <-.
  assert (I : (i < n)%nat) by (rewrite <- (seq_length n 0); apply nth_error_Some; congruence). rewrite (nth_error_nth' _ 0%nat) in E by (rewrite seq_length; exact I). rewrite seq_nth in E by exact I. injection E as <-.
  unfold lum_bin. specialize (C2 i I). cbn [Nat.add]. split; lra.
Qed.
Print Assumptions C178_mask_norm.
(** The table begins at magnitude 10 in the low redshift mode and at 12 otherwise; a limit fainter than 1000 is not in any table. *)
Theorem C178_ends lowz n alpha mstar mag m : lum_bin (first_mag lowz) 0 = (if lowz then 10 else 12) /\ (100001/100 <= mag -> (Z.of_nat n <= 90000)%Z -> calc_luminosity (first_mag lowz) n alpha mstar mag m = Err IndexError).
Proof.
  split; [destruct lowz; unfold lum_bin, first_mag; cbn [INR]; lra|]. intros G N. unfold calc_luminosity. destruct n as [|k]; [reflexivity|]. set (b0 := first_mag lowz).
  destruct (norm_spec b0 (S k) alpha mstar) as (t & -> & L & _); [lia|]. cbn [bind]. destruct (nth_error t _) eqn:E; [|reflexivity]. exfalso. assert (I : (lum_index b0 (S k) mag < List.length t)%nat) by (apply nth_error_Some; congruence). rewrite L in I.
  assert (B : (b0 <= 12)%Z) by (unfold b0; destruct lowz; cbn; lia). assert (R : (100001 <= roundR (mag * 100))%Z) by (rewrite <- (round_int 100001); apply round_mono; lra).
  unfold lum_index in I. revert I. generalize (roundR (mag * 100)), R. intros c Hc. assert (A : forall l, (forall y, In y l -> (y < c)%Z) -> prefix_len (fun y => (y <? c)%Z) l = List.length l).
  { induction l as [|y l IH]; [reflexivity|]. intros H. cbn [prefix_len List.length]. pose proof (H y (or_introl eq_refl)). destruct (Z.ltb_spec y c); [|lia]. rewrite IH; [reflexivity|]. intros z Z. apply H. right. exact Z. }
  rewrite A. 2:{ intros y Y. unfold lum_integers in Y. apply in_app_or in Y as [Y|[<-|[]]]; [|lia]. apply in_map_iff in Y as (i & <- & Y). apply in_seq in Y. lia. }
  unfold lum_integers. rewrite app_length, map_length, seq_length. cbn [List.length]. lia.
Qed.
Print Assumptions C178_ends.
(** there is an integral, and the limits of the examples are in the table *)
Example C178_example : (0 < n_lum 12 20)%nat /\ IZR 12 <= maxmag 18 1 <= IZR 12 + INR (n_lum 12 20 - 1) / 100.
Proof.
  assert (L1 : log10 1 = 0) by (unfold log10; rewrite ln_1; unfold Rdiv; ring). assert (L2 : log10 (1/10) = -1). { unfold log10. replace (1/10) with (/ 10) by lra. rewrite ln_Rinv by lra. pose proof ln10_pos. field. lra. }
  destruct (proj1 (C178_table 12 20)) as (A & B & C); [rewrite L2; lra|]. split; [exact A|]. unfold maxmag. rewrite L1, L2 in *. rewrite minus_INR in * by lia. cbn [INR] in *. lra.
Qed.
