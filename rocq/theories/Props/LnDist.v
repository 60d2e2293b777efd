(** C186: the redshift of a galaxy from the probability of each redshift. *)
From Coq Require Import Reals Lra Lia.
From Verif.Base Require Import Py.
From Verif.Model Require Import BkgGen ZredColor LnDist.
From Verif.Spec Require Import ZredColor LnDist.
From Verif.Proofs Require Import BkgGen Solver ZredColor LnDist.
From Verif.Props Require ZredColor.
From Coq Require Import List. Import ListNotations.
Local Open Scope R_scope.

(** Between two bins with a volume the densities are as the probabilities: Gaussian of the colors, luminosity function, volume. *)
Theorem C186_odds p chisq mag i j : 0 < l_vol p i -> 0 < l_vol p j ->
  exp (lndensity p chisq mag i - lndensity p chisq mag j) = posterior p chisq mag i / posterior p chisq mag j.
Proof. intros A B. unfold Rminus. rewrite exp_plus, exp_Ropp, !exp_density by assumption. reflexivity. Qed.
Print Assumptions C186_odds.
(** A galaxy's redshift (before corrections) is within two errors of the mean of the redshift over the bins that count, weighted
    by their probability; its error is the spread of the same distribution, at least 0.005. *)
Theorem C186_estimate g P p chisq mag o : increasing g -> overflow g -> (forall m, In m (zbins g (limited g mag)) -> 0 < l_vol p m) ->
  uncorrected g P mag (lndensity p chisq mag) chisq = Ok (Some o) ->
  exists l, NoDup l /\ (forall i, In i l <-> counts g p chisq mag i) /\ l <> [] /\
    let f := posterior p chisq mag in
    let mean := integ g (fun i => f i * zg_z g i) l / integ g f l in
    Rabs (o_zred o - mean) < 2 * o_zred_e o /\
    o_zred_e o = Rmax (5/1000) (sqrt (integ g (fun i => f i * (zg_z g i * zg_z g i)) l / integ g f l - mean * mean)).
Proof.
  intros Hi Ho V H. unfold uncorrected in H. destruct (Nat.ltb_spec (length (limited g mag)) 2) as [Hl|Hl]; [discriminate|].
  destruct (peak _ _) as [ind|]; [|discriminate]. cbn [bind] in H. cbv zeta in H. set (lnd := lndensity p chisq mag) in *.
  set (bins := zbins g (limited g mag)) in *. set (calc := calcinds g (dist bins lnd)) in *.
  destruct (lkhd g (lndist bins lnd) calc _ _) as [lk|] eqn:E; [|discriminate]. injection H as <-. cbn [o_zred o_zred_e].
  assert (Hne : calc <> []) by apply (calc_nonempty g mag lnd Hl Ho).
  assert (Hs : incl_sorted (zg_z g) calc) by apply calc_sorted, Hi.
  assert (C : forall i, In i calc <-> counts g p chisq mag i). { intros i. rewrite (counts_weighty g p chisq mag i V). apply (calc_weighty g mag lnd i Hl Ho). }
  assert (D : forall i, In i calc -> dist bins lnd i = exp (- rmax lnd bins) * posterior p chisq mag i).
  { intros i I. apply C in I. destruct I as (_ & I & _). unfold dist. rewrite (proj2 (mem_iff bins i) I). unfold Rminus. rewrite exp_plus. unfold lnd at 1. rewrite exp_density by (apply V, I). ring. }
  assert (K : exp (- rmax lnd bins) <> 0) by (pose proof (exp_pos (- rmax lnd bins)); lra).
  assert (M : zmean g (dist bins lnd) calc = zmean g (posterior p chisq mag) calc). { rewrite (zmean_ext g _ _ calc D). apply zmean_scale, K. }
  assert (S0 : zerr g (dist bins lnd) calc = zerr g (posterior p chisq mag) calc). { rewrite (zerr_ext g _ _ calc D). apply zerr_scale, K. }
  exists calc. split; [unfold calc, calcinds; apply NoDup_filter, seq_NoDup|]. split; [exact C|]. split; [exact Hne|]. cbv zeta. split.
  - change (integ g (fun i => posterior p chisq mag i * zg_z g i) calc / integ g (posterior p chisq mag) calc) with (zmean g (posterior p chisq mag) calc). rewrite <- M. apply refine_near.
    pose proof (zerr_ge g (dist bins lnd) calc). lra.
  - rewrite S0. apply ZredColor.C48_spread; [exact Hs| |exact Hne]. intros i I. apply C in I. destruct I as (_ & I & _). apply posterior_pos, V, I.
Qed.
Print Assumptions C186_estimate.
(** A redshift is given when two bins are within the magnitude limits and a bin that counts has a real density. *)
Theorem C186_given g P p chisq mag i : increasing g -> overflow g -> zg_good g <> [] -> (2 <= length (limited g mag))%nat ->
  (forall m, In m (zbins g (limited g mag)) -> 0 < l_vol p m) -> counts g p chisq mag i -> exp (-10000000000) <= posterior p chisq mag i ->
  exists o, uncorrected g P mag (lndensity p chisq mag) chisq = Ok (Some o).
Proof.
  intros Hi Ho Hg Hl V C R. pose (k := {| k_pivot := fun _ => 0; k_corr := fun _ => 0; k_slope := fun _ => 0; k_r := fun _ => 0; k_corr2 := fun _ => 0; k_slope2 := fun _ => 0; k_r2 := fun _ => 0 |}).
  destruct (proj2 (ZredColor.C48_failed g P k false mag (lndensity p chisq mag) chisq Hi Ho Hg)) as (o & E & F).
  - intros [H|H]; [lia|]. specialize (H i (proj1 (counts_weighty g p chisq mag i V) C)). apply exp_increasing in H. rewrite exp_density in H by (apply V, C). lra.
  - unfold compute_zred in E. destruct (uncorrected _ _ _ _ _) as [[u|]|]; cbn [bind] in E; [exists u; reflexivity| |discriminate]. injection E as <-. cbn in F. lra.
Qed.
Print Assumptions C186_given.
(** When no evaluated bin has a volume the galaxy gets the values of a failed one. *)
Theorem C186_no_volume g P k do_corr p chisq mag : increasing g -> overflow g -> zg_good g <> [] ->
  (forall m, In m (zbins g (limited g mag)) -> l_vol p m <= 0) ->
  exists o, compute_zred g P k do_corr false mag (lndensity p chisq mag) chisq = Ok o /\ failed_row o.
Proof.
  intros Hi Ho Hg V. apply (proj1 (ZredColor.C48_failed g P k do_corr mag (lndensity p chisq mag) chisq Hi Ho Hg)). right. intros i (_ & I & _). rewrite no_density by (apply V, I). lra.
Qed.
Print Assumptions C186_no_volume.
(** A bin without a volume does not count beside one whose density is real. *)
Theorem C186_without_volume g p chisq mag i j : In i (zbins g (limited g mag)) -> l_vol p i <= 0 ->
  In j (zbins g (limited g mag)) -> 0 < l_vol p j -> exp (-99999999900) <= posterior p chisq mag j -> ~ weighty g mag (lndensity p chisq mag) i.
Proof.
  intros I V J W Pj (_ & _ & H). specialize (H j J). rewrite (no_density p chisq mag i V) in H.
  rewrite <- exp_density in Pj by exact W. assert (L : -99999999900 <= lndensity p chisq mag j). { destruct (Rle_or_lt (-99999999900) (lndensity p chisq mag j)) as [L|L]; [exact L|]. apply exp_increasing in L. lra. }
  assert (B : -100 < ln (1/100000)).
  { apply exp_lt_inv. rewrite exp_ln by lra. replace (-100) with (- (20 + (20 + (20 + (20 + 20))))) by lra. rewrite exp_Ropp, !exp_plus.
    assert (E1 : 20 <= exp 20) by (pose proof (exp_ineq1 20 ltac:(lra)); lra). set (e := exp 20) in *.
    assert (E2 : 400 <= e * e) by (replace 400 with (20 * 20) by lra; apply Rmult_le_compat; lra).
    assert (E3 : 160000 <= (e * e) * (e * e)) by (replace 160000 with (400 * 400) by lra; apply Rmult_le_compat; lra).
    assert (E4 : 160000 * 20 <= ((e * e) * (e * e)) * e) by (apply Rmult_le_compat; lra).
    replace (1 / 100000) with (/ 100000) by lra. apply Rinv_lt_contravar; [|lra]. apply Rmult_lt_0_compat; [lra|]. replace (e * (e * (e * (e * e)))) with (((e * e) * (e * e)) * e) by ring. lra. }
  lra.
Qed.
Print Assumptions C186_without_volume.

(** non-vacuity: a galaxy at m* in each of three bins, with equal volumes and equal chi squared *)
Example C186_ex : let p := {| l_alpha := -1; l_mstar := fun _ => 20; l_vol := fun _ => 1 |} in let g := ZredColor.g_ex in forall P,
  exists o, uncorrected g P 20 (lndensity p (fun _ => 0) 20) (fun _ => 0) = Ok (Some o) /\ counts g p (fun _ => 0) 20 1.
Proof.
  cbv zeta. intros P. destruct ZredColor.g_ex_ok as (A & B & C & D).
  assert (K : counts ZredColor.g_ex {| l_alpha := -1; l_mstar := fun _ => 20; l_vol := fun _ => 1 |} (fun _ => 0) 20 1).
  { split; [cbn; lia|]. destruct (ZredColor.C48_bins ZredColor.g_ex 20 B ltac:(lia)) as (_ & Z1 & Z2).
    assert (In 1%nat (limited ZredColor.g_ex 20)). { apply ZredColor.C48_limits. unfold within. cbn. repeat split; try lia; lra. }
    split; [apply Z2; assumption|]. intros m _. unfold posterior, luminosity. cbn [l_alpha l_mstar l_vol].
    set (x := exp _ * _ * 1). assert (0 < x) by (unfold x; rewrite Rmult_1_r; repeat apply Rmult_lt_0_compat; apply exp_pos). lra. }
  destruct (C186_given ZredColor.g_ex P {| l_alpha := -1; l_mstar := fun _ => 20; l_vol := fun _ => 1 |} (fun _ => 0) 20 1 A B C ltac:(lia)) as (o & E).
  - intros; cbn; lra.
  - exact K.
  - unfold posterior, luminosity. cbn [l_alpha l_mstar l_vol]. replace (4/10 * (20 - 20)) with 0 by lra. replace (-1 + 1) with 0 by lra. rewrite (Rpower_O 10) by lra. rewrite (Rpower_O 1) by lra.
    rewrite Rmult_1_l, Rmult_1_r. rewrite <- exp_plus. left. apply exp_increasing. lra.
  - exists o. split; [exact E|exact K].
Qed.
