(** C110: the calibration of the cluster redshift correction. *)
From Coq Require Import Reals Lra.
From Verif.Base Require Import Py.
From Verif.Model Require Import ZCorr ZCal.
From Verif.Spec Require Import ZCal.
From Verif.Proofs Require Import ZCal.
From Coq Require Import Lia List. Import ListNotations.
Local Open Scope R_scope.

(** C110: as many columns are fitted as asked for, and column k is fitted to the clusters with the redshifts that the columns
    before it give from the original ones; richness, scale and spectroscopic redshift stay. *)
Theorem C110_redshifts : forall pivot n fit orig tr cols last, (forall c, In c orig -> 0 <= zc_e c) ->
  calibrate pivot n fit orig = (tr, cols, last) ->
  List.length cols = n /\
  forall k, (k < n)%nat -> exists cat, nth_error tr k = Some cat /\ nth_error cols k = Some (fit cat) /\
    map (fun c => (zc_lam c, zc_scale c, zc_spec c, zc_zl c)) cat =
    map (fun c => (zc_lam c, zc_scale c, zc_spec c, corrected_z pivot (firstn k cols) (zc_lam c) (zc_zl c))) orig.
Proof.
  intros pivot n fit orig tr cols last He H. destruct (calib_out _ _ _ _ _ _ _ _ _ _ H) as (L1 & L2 & _). cbn in L2. destruct (calib_trace _ _ _ _ _ _ _ _ _ _ H) as (A & B & C & D).
  split; [exact L2|]. intros k Hk. destruct (nth_error tr k) as [cat|] eqn:E; [|apply nth_error_None in E; lia]. exists cat. split; [reflexivity|]. split; [exact (A k cat E)|].
  destruct k as [|k]; [rewrite (C cat E); reflexivity|]. rewrite (B k cat E). cbn [List.length Nat.add]. rewrite map_map. apply map_ext_in. intros c Hc.
  rewrite correct_eq; [reflexivity|apply He, Hc|rewrite firstn_length; lia].
Qed.
Print Assumptions C110_redshifts.
(** the last catalog is the original one corrected with the columns that are written. *)
Theorem C110_final : forall pivot n fit orig tr cols last, (0 < n)%nat -> (forall c, In c orig -> 0 <= zc_e c) ->
  calibrate pivot n fit orig = (tr, cols, last) ->
  last = map (fun c => mkZC (zc_lam c) (zc_scale c) (zc_spec c) (corrected_z pivot cols (zc_lam c) (zc_zl c))
                            (sqrt (zc_e c ^ 2 + scatter2 pivot cols (zc_lam c) (zc_zl c)))) orig.
Proof.
  intros pivot n fit orig tr cols last Hn He H. destruct (calib_out _ _ _ _ _ _ _ _ _ _ H) as (_ & L2 & _). cbn in L2. destruct (calib_trace _ _ _ _ _ _ _ _ _ _ H) as (_ & _ & _ & D).
  rewrite D by lia. apply map_ext_in. intros c Hc. rewrite correct_eq; [|apply He, Hc|lia]. rewrite L2, Nat.sub_diag. f_equal. f_equal. cbn. ring.
Qed.
Print Assumptions C110_final.
(** Finding: while column k is fitted the errors contain, besides the scatter of the columns before it, a thousandth in quadrature
    for every column that has not been fitted yet, because the scatter of an empty column is clipped to 0.001. *)
Theorem C110_errors_refuted : forall pivot n fit orig tr cols last, (forall c, In c orig -> 0 <= zc_e c) ->
  calibrate pivot n fit orig = (tr, cols, last) ->
  forall k cat, (0 < k)%nat -> nth_error tr k = Some cat ->
    map zc_e cat = map (fun c => sqrt (zc_e c ^ 2 + scatter2 pivot (firstn k cols) (zc_lam c) (zc_zl c) + INR (n - k) * (1 / 1000) ^ 2)) orig /\ (0 < n - k)%nat.
Proof.
  intros pivot n fit orig tr cols last He H k cat Hk E. destruct (calib_out _ _ _ _ _ _ _ _ _ _ H) as (L1 & L2 & _). cbn in L2. destruct (calib_trace _ _ _ _ _ _ _ _ _ _ H) as (_ & B & _ & _).
  assert (k < n)%nat by (rewrite <- L1; apply nth_error_Some; rewrite E; discriminate). split; [|lia]. destruct k as [|k]; [lia|].
  rewrite (B k cat E). cbn [List.length Nat.add]. rewrite map_map. apply map_ext_in. intros c Hc. rewrite correct_eq; [|apply He, Hc|rewrite firstn_length; lia].
  cbn [zc_e]. rewrite firstn_length. replace (Nat.min (S k) (List.length cols)) with (S k) by lia. reflexivity.
Qed.
Print Assumptions C110_errors_refuted.
(** Finding: the fit takes the richness without the scale factor (Lambda/scaleval) and the correction is applied with it: the
    offset applied to a cluster differs from the one fitted for it by the slope times the logarithm of the scale factor. *)
Theorem C110_scale_refuted : forall pivot (k : col) c, 0 < pivot -> 0 < zc_lam c -> 0 < zc_scale c -> 0 <= zc_e c ->
  zc_zl (correct_cl pivot 1 [k] c) - zc_zl c - predicted k (fit_sample pivot c) = k_slope k (zc_zl c) * ln (zc_scale c).
Proof.
  intros pivot k c Hp Hl Hs He. rewrite correct_eq by (auto; cbn; lia). cbn [zc_zl corrected_z]. unfold predicted, fit_sample.
  assert (P : 0 < zc_lam c / pivot) by (apply Rdiv_lt_0_compat; lra). replace (zc_lam c / zc_scale c / pivot) with (zc_lam c / pivot * / zc_scale c) by (field; lra).
  rewrite ln_mult by (auto using Rinv_0_lt_compat). rewrite ln_Rinv by lra. ring.
Qed.
Print Assumptions C110_scale_refuted.
(** and agrees with it for clusters with scale factor one, *)
Theorem C110_unscaled_partial : forall pivot (k : col) c, 0 <= zc_e c -> zc_scale c = 1 ->
  zc_zl (correct_cl pivot 1 [k] c) = zc_zl c + predicted k (fit_sample pivot c).
Proof.
  intros pivot k c He Hs. rewrite correct_eq by (auto; cbn; lia). cbn [zc_zl corrected_z]. unfold predicted, fit_sample. rewrite Hs. unfold Rdiv at 3. rewrite Rinv_1, Rmult_1_r. reflexivity.
Qed.
Print Assumptions C110_unscaled_partial.
(** so that a column that fits such clusters exactly brings them to their spectroscopic redshifts. *)
Theorem C110_exact_partial : forall pivot (k : col) c, 0 <= zc_e c -> zc_scale c = 1 ->
  predicted k (fit_sample pivot c) = zc_spec c - zc_zl c -> zc_zl (correct_cl pivot 1 [k] c) = zc_spec c.
Proof. intros pivot k c He Hs H. rewrite C110_unscaled_partial by assumption. rewrite H. ring. Qed.
Print Assumptions C110_exact_partial.
(** a fit that returns the mean offset of its catalog, for two iterations and one cluster *)
Example C110_example : exists tr cols last,
  calibrate 30 2 (fun cat => mkCol (fun _ => match cat with c :: _ => (zc_spec c - zc_zl c) / 2 | [] => 0 end) (fun _ => 0) (fun _ => 0)) [mkZC 40 1 (5/10) (4/10) (1/100)] = (tr, cols, last) /\
  map zc_zl last = [4/10 + (5/10 - 4/10) / 2 + (5/10 - (4/10 + (5/10 - 4/10) / 2)) / 2].
Proof.
  destruct (calibrate 30 2 (fun cat => mkCol (fun _ => match cat with c :: _ => (zc_spec c - zc_zl c) / 2 | [] => 0 end) (fun _ => 0) (fun _ => 0)) [mkZC 40 1 (5/10) (4/10) (1/100)]) as [[tr cols] last] eqn:E.
  exists tr, cols, last. split; [reflexivity|]. assert (Ec := f_equal (fun x => snd (fst x)) E). unfold calibrate in Ec. cbn [calib_from app fst snd] in Ec.
  assert (G : forall c, In c [mkZC 40 1 (5/10) (4/10) (1/100)] -> 0 <= zc_e c) by (intros c [<-|[]]; cbn; lra).
  rewrite (C110_final 30 2 _ _ tr cols last ltac:(lia) G E). cbn [map zc_zl zc_lam]. rewrite <- Ec. cbn [map]. rewrite correct_eq by (cbn; first [lra | lia]). cbn [corrected_z k_off k_slope zc_zl zc_spec zc_lam]. f_equal. field.
Qed.
(** Finding: with a single iteration (calib_zlambda_correct_niter: 1) the correction cannot be made: the array with one column is
    not reduced to it, and the spline's values do not fit. *)
Theorem C110_single_refuted : forall nodes nbins, (1 < nbins)%nat -> make_corr 1 nodes nbins = Err ValueError.
Proof.
  intros nodes nbins Hb. unfold make_corr, spline_rows. cbn [Nat.eqb].
  assert (F : assign1 nbins (bcast [nbins] [1%nat; nbins]) = Err ValueError).
  { cbn. unfold bdim. destruct (Nat.eqb nbins 1) eqn:E1; [apply Nat.eqb_eq in E1; lia|]. cbn. rewrite Nat.eqb_refl. cbn [orb andb forallb].
    destruct nbins as [|[|b]]; try lia; reflexivity. }
  rewrite F. destruct (assign1 (nodes - 2) _) as [[]|x] eqn:E; [reflexivity|]. cbn [bind]. unfold assign1 in E. clear F. destruct (bcast _ _) as [[|d r]|]; try congruence. destruct (((d =? nodes - 2) || (d =? 1)) && forallb (Nat.eqb 1) r)%nat; congruence.
Qed.
Print Assumptions C110_single_refuted.
(** With more it can. *)
Theorem C110_several_partial : forall niter nodes nbins, (2 <= niter)%nat -> make_corr niter nodes nbins = Ok tt.
Proof.
  intros niter nodes nbins H. unfold make_corr. rewrite (proj2 (Nat.eqb_neq _ _)) by lia.
  assert (F : spline_rows nodes nbins None = Ok tt).
  { unfold spline_rows, assign1. cbn [bcast]. unfold bdim. rewrite !Nat.eqb_refl. reflexivity. }
  clear H. rewrite F. cbn [bind]. induction niter as [|l IH]; [reflexivity|]. exact IH.
Qed.
Print Assumptions C110_several_partial.
