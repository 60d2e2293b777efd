(** C101-C104: calibration of the redMaGiC cuts. *)
From Coq Require Import QArith Qround Lqa Lia.
From Verif.Base Require Import Py PyLemmas.
From Verif.Model Require Import Util Maskgals RedCal.
From Verif.Spec Require Import RedCal.
From Verif.Proofs Require Import Util Maskgals RedCal.
From Coq Require Import Lqa Lia List String Permutation. Import ListNotations.
Local Open Scope Q_scope.

(** * C101 *)
(** C101: the starting value of the chi-squared cut at a node is the chi-squared of one of the galaxies around it, such that
    the galaxies redder than it are as many as make up the wanted density in the volume (n * vol, rounded up), or all but the
    worst if there are not enough. *)
Theorem C101_start : forall n vol chisqs, 0 < vol -> 0 <= n -> chisqs <> [] ->
  exists c k, start_cut n vol chisqs = Ok c /\ In c chisqs /\
    Z.of_nat k = Z.min (Qceiling (n * vol)) (Z.of_nat (List.length chisqs) - 1) /\
    (count (fun x => Qlt_bool x c) chisqs <= k)%nat /\ (k < count (fun x => Qle_bool x c) chisqs)%nat.
Proof.
  intros n vol chisqs Hv Hn Hne. assert (HN : (0 < List.length chisqs)%nat) by (destruct chisqs; [congruence|cbn; lia]).
  pose proof (start_index n vol (List.length chisqs) Hv Hn HN) as EI. unfold start_cut. destruct chisqs as [|x0 t] eqn:EC; [congruence|]. rewrite <- EC in *.
  set (k := Nat.min _ _) in *. assert (Hk : (k < List.length (sortQ chisqs))%nat) by (rewrite sort_len; unfold k; lia).
  destruct (nth_error (sortQ chisqs) k) as [c|] eqn:Ec; [|apply nth_error_None in Ec; lia].
  exists c, k. split; [reflexivity|]. split; [apply (Permutation_in _ (sort_perm chisqs)); eapply nth_error_In, Ec|]. split; [exact EI|].
  destruct (sorted_split _ k c (sort_sorted chisqs) Ec) as [A B]. rewrite (count_perm _ _ _ (sort_perm chisqs)) in A. rewrite (count_perm _ _ _ (sort_perm chisqs)) in B. auto.
Qed.
Print Assumptions C101_start.
(** Finding: a node with no galaxy around it stops the calibration with an IndexError. *)
Theorem C101_empty_refuted : forall n vol, start_cut n vol [] = Err IndexError.
Proof. reflexivity. Qed.
Print Assumptions C101_empty_refuted.
(** Finding: the number of constant cuts is not checked with the other settings of the selections, so the calibration stops with
    an IndexError at the first selection without one. *)
Theorem C101_constant_refuted : forall constchis i, (List.length constchis <= i)%nat -> const_cut constchis i = Err IndexError.
Proof. intros l i H. unfold const_cut. rewrite (proj2 (nth_error_None l i) H). reflexivity. Qed.
Print Assumptions C101_constant_refuted.
Example C101_example : start_cut (2#10) 10 [5; 1; 9; 3; 7] = Ok 5 /\ start_cut 1 10 [5; 1; 9] = Ok 9.
Proof. vm_compute. auto. Qed.

(** * C102 *)
(** C102: the cost is computed in bins that tile its range, and is never negative; it is zero exactly if no parameter is below 0.1
    and every bin has the wanted density of galaxies kept by the cuts: n times its volume. *)
Theorem C102_zero : forall faint maxchi etamin n bs lo N volume cut pars gals,
  (1 # 10000) < bs -> (0 < N)%nat -> 0 < n -> List.length volume = N -> (forall v, In v volume -> 0 < v) ->
  let hi := lo + Qn N * bs in
  let sel := filter (fun g => Qlt_bool (c_chisq g) (clipQ (1#10) maxchi (cut (c_z g))) && Qlt_bool (c_mag g) (c_mstar g + faint etamin) && Qlt_bool (c_zm g) (c_zmax g)) gals in
  sel <> [] ->
  exists t, cost faint maxchi etamin n bs (lo, hi) volume cut pars gals = Ok t /\ 0 <= t /\
    (t == 0 <-> (forall p, In p pars -> (1#10) <= p) /\
       forall j v, nth_error volume j = Some v -> Qn (count (in_bin lo (hi - (1#10000)) bs j) (map c_samp sel)) == n * v).
Proof.
  intros faint maxchi etamin n bs lo N volume cut pars gals Hb HN Hn HL Hv hi sel Hne. unfold cost.
  change (filter (kept faint maxchi etamin cut) gals) with sel. destruct sel as [|g0 st] eqn:ES; [congruence|]. rewrite <- ES in *. cbn [fst]. unfold hist_max. cbn [snd].
  assert (E1 : Qn N * bs == Qn (N - 1) * bs + bs) by (replace N with (S (N - 1)) at 1 by lia; rewrite Qn_S; ring).
  destruct (hist_spec lo (hi - (1#10000)) bs (map c_samp sel) N) as [L H]; [lra|exact HN|unfold hi; lra|unfold hi; lra|].
  rewrite L, HL, Nat.eqb_refl.
  destruct (sum_cost_zero n (histogram lo (hi - (1#10000)) bs (map c_samp sel)) volume Hn Hv ltac:(lia)) as [A B].
  set (t := Qsum _) in *. eexists. split; [reflexivity|].
  assert (B' : t == 0 <-> forall j v, nth_error volume j = Some v -> Qn (count (in_bin lo (hi - (1#10000)) bs j) (map c_samp sel)) == n * v).
  { rewrite B. split; intros K j; [intros v Hjv|intros h v Hh Hjv].
    - assert (Hj : (j < N)%nat) by (rewrite <- HL; apply nth_error_Some; congruence). apply (K j); [apply H, Hj|exact Hjv].
    - assert (Hj : (j < N)%nat) by (rewrite <- HL; apply nth_error_Some; congruence). rewrite (H j Hj) in Hh. injection Hh as <-. apply K, Hjv. }
  destruct (existsb (fun p => Qlt_bool p (1#10)) pars) eqn:EP.
  - split; [lra|]. split; [intros K; lra|]. intros [K _]. exfalso. apply existsb_exists in EP. destruct EP as (p & Hp & Lp). apply Qlt_bool_iff in Lp. specialize (K p Hp). lra.
  - split; [exact A|]. rewrite B'. split; [intros K; split; [|exact K]|intros [_ K]; exact K]. intros p Hp. destruct (Qlt_le_dec p (1#10)) as [G|G]; [|exact G]. exfalso.
    assert (existsb (fun p => Qlt_bool p (1#10)) pars = true) by (apply existsb_exists; exists p; split; [exact Hp|apply Qlt_bool_iff, G]). congruence.
Qed.
Print Assumptions C102_zero.
(** cuts that keep no galaxy are given a very large cost *)
Theorem C102_nothing_kept : forall faint maxchi etamin n bs range volume cut pars gals,
  (forall g, In g gals -> clipQ (1#10) maxchi (cut (c_z g)) <= c_chisq g \/ c_mstar g + faint etamin <= c_mag g \/ c_zmax g <= c_zm g) ->
  cost faint maxchi etamin n bs range volume cut pars gals = Ok 100000000000.
Proof.
  intros faint maxchi etamin n bs range volume cut pars gals H. unfold cost.
  assert (E : filter (kept faint maxchi etamin cut) gals = []); [|rewrite E; reflexivity].
  induction gals as [|g t IH]; [reflexivity|]. cbn [filter]. assert (K : kept faint maxchi etamin cut g = false).
  { unfold kept, chi2max. destruct (H g (or_introl eq_refl)) as [K|[K|K]]; apply Qlt_bool_false in K; rewrite K; rewrite ?andb_false_r; reflexivity. }
  rewrite K. apply IH. intros; apply H; right; assumption.
Qed.
Print Assumptions C102_nothing_kept.
(** the range of the cost of a selection is a whole number of bins from its start plus the buffer, and ends less than a bin
    above its end minus the buffer *)
Theorem C102_range : forall z0 zmax buffer bs, 0 < bs -> z0 + buffer < zmax - buffer ->
  exists N, (0 < N)%nat /\ fst (cost_range z0 zmax buffer bs) == z0 + buffer /\ snd (cost_range z0 zmax buffer bs) == z0 + buffer + Qn N * bs /\
    zmax - buffer <= snd (cost_range z0 zmax buffer bs) /\ snd (cost_range z0 zmax buffer bs) < zmax - buffer + bs.
Proof.
  intros z0 zmax buffer bs Hb H. destruct (even_spec (z0 + buffer) (zmax - buffer) bs Hb H) as (N & HN & _ & E & L1 & L2).
  exists N. unfold cost_range. split; [exact HN|]. split; [reflexivity|]. split; [exact E|]. rewrite E. auto.
Qed.
Print Assumptions C102_range.
(** Finding: galaxies sampled in the last 0.0001 of the range are in no bin, while the volume of the last bin is the full one. *)
Theorem C102_top_refuted : forall lo hi bs x xs, hi - (1#10000) < x -> histogram lo (hist_max (lo, hi)) bs (x :: xs) = histogram lo (hist_max (lo, hi)) bs xs.
Proof.
  intros lo hi bs x xs H. unfold histogram, hist_max. cbn [snd filter]. assert (E : Qle_bool x (hi - (1#10000)) = false) by (apply not_true_iff_false; intros K; apply Qle_bool_iff in K; lra).
  rewrite E, andb_false_r. reflexivity.
Qed.
Print Assumptions C102_top_refuted.
Example C102_example :
  let g s := mkCG (3#10) 1 18 20 20 (3#10) s 1 in
  exists t, cost (fun _ => 0) 20 1 (1#10) (1#10) (2#10, 4#10) [10; 20] (fun _ => 5) [5; 5] [g (25#100); g (31#100); g (35#100)] = Ok t /\ t == 0.
Proof. eexists. split; [reflexivity|]. vm_compute. reflexivity. Qed.

(** * C103 *)
(** C103: after each selection is calibrated its own calibration is used for it, *)
Theorem C103_own : forall (C : Type) (f : calfile C) modes, snd (calibrate f modes) = map (fun nc => Some (snd nc)) modes.
Proof. intros. apply calibrate_file. Qed.
Print Assumptions C103_own.
(** and the file at the end has the calibration of every selection, also when an older file was there, *)
Theorem C103_read : forall (C : Type) (f : calfile C) modes name c, NoDup (map fst modes) -> In (name, c) modes ->
  calib_of (fst (calibrate f modes)) name = Some c.
Proof. intros C f modes name c Hn Hi. destruct (calibrate_file modes f) as [-> _]. rewrite calib_app, (calib_in modes name c Hn Hi). reflexivity. Qed.
Print Assumptions C103_read.
(** and nothing else if none was there. *)
Theorem C103_only_partial : forall (C : Type) (modes : list (string * C)) name, ~ In name (map fst modes) -> calib_of (fst (calibrate [] modes)) name = None.
Proof. intros C modes name H. destruct (calibrate_file modes (@nil (string * C))) as [-> _]. cbn [app]. apply calib_notin, H. Qed.
Print Assumptions C103_only_partial.
(** Finding: selections of an older calibration file that are no longer configured stay in the file, and catalogs are made for
    them again. *)
Theorem C103_stale_refuted : forall (C : Type) (f : calfile C) modes name, ~ In name (map fst modes) ->
  calib_of (fst (calibrate f modes)) name = calib_of f name.
Proof. intros C f modes name H. destruct (calibrate_file modes f) as [-> _]. rewrite calib_app, calib_notin by exact H. reflexivity. Qed.
Print Assumptions C103_stale_refuted.
(** Finding: two selections of the same name are both calibrated, and only the second can be used afterwards. *)
Theorem C103_same_name_refuted : forall (C : Type) (f : calfile C) name (c d : C),
  calib_of (fst (calibrate f [(name, c); (name, d)])) name = Some d.
Proof. intros C f name c d. destruct (calibrate_file [(name, c); (name, d)] f) as [-> _]. rewrite calib_app. unfold calib_of. cbn. rewrite String.eqb_refl. reflexivity. Qed.
Print Assumptions C103_same_name_refuted.
Example C103_example : calib_of (fst (calibrate [("old"%string, 1%Z); ("highdens"%string, 2%Z)] [("highdens"%string, 3%Z); ("highlum"%string, 4%Z)])) "highdens"%string = Some 3%Z /\
  calib_of (fst (calibrate [("old"%string, 1%Z)] [("highlum"%string, 4%Z)])) "old"%string = Some 1%Z.
Proof. vm_compute. auto. Qed.

(** * C104 *)
(** C104: the galaxies read for the calibration include all that a selection can keep in its range: within the range of the cost,
    below the chi-squared limit and bright enough at their own redshift, if the selection does not reach beyond the range
    configured for all. *)
Theorem C104_sample_partial : forall faint etas z0 z1 buffer bs chisqcut eta zmax g,
  (forall l l', l <= l' -> faint l' <= faint l) -> 0 < bs -> 0 <= buffer -> zmax <= z1 -> In eta etas ->
  let r := cost_range z0 zmax buffer bs in
  fst r <= c_z g -> c_z g < snd r -> c_chisq g < chisqcut -> c_mag g < c_mstar0 g + faint (Qmax2 (eta - (5#100)) (1#10)) ->
  possible faint etas z0 z1 buffer bs chisqcut g = true /\ red_poss faint eta g = true.
Proof.
  intros faint etas z0 z1 buffer bs chisqcut eta zmax g Hf Hb Hbu Hz Hin r H1 H2 H3 H4. change (Qmax2 (eta - (5#100)) (1#10)) with (min_lum eta) in H4.
  split; [|apply Qlt_bool_iff; exact H4]. unfold possible, cut_range, z_cushion. cbn [fst snd].
  unfold r, cost_range in *. pose proof (even_mono (z0 + buffer) (zmax - buffer) (z1 - buffer) bs Hb ltac:(lra)) as M.
  set (c1 := snd (even_range (z0 + buffer) (zmax - buffer) bs)) in *. set (c2 := snd (even_range (z0 + buffer) (z1 - buffer) bs)) in *. cbn [even_range fst] in *.
  assert (F : faint (min_lum eta) <= faint (min_lum (minQ etas))) by (apply Hf, min_lum_mono, minQ_le, Hin).
  repeat rewrite andb_true_iff. repeat split; apply Qlt_bool_iff; lra.
Qed.
Print Assumptions C104_sample_partial.
(** Finding: the range of the galaxies that are read is that of redmagic_zrange, also if a selection is configured to go higher:
    with 0.1 to 0.6 and a selection up to 0.9, no galaxy at redshift 0.8 is read, which is within the range of its cost. *)
Theorem C104_zmax_refuted : forall faint etas chisqcut g, c_z g == 8#10 ->
  possible faint etas (1#10) (6#10) (5#100) (2#100) chisqcut g = false /\
  fst (cost_range (1#10) (9#10) (5#100) (2#100)) <= c_z g < snd (cost_range (1#10) (9#10) (5#100) (2#100)).
Proof.
  intros faint etas chisqcut g H. split.
  - unfold possible. assert (E : Qlt_bool (c_z g) (snd (cut_range (1#10) (6#10) (5#100) (2#100))) = false).
    { apply Qlt_bool_false. rewrite H. vm_compute. discriminate. }
    rewrite E, andb_false_r. reflexivity.
  - rewrite H. split; [vm_compute; discriminate|vm_compute; reflexivity].
Qed.
Print Assumptions C104_zmax_refuted.
(** the galaxies that train the afterburner are different ones with a calibration redshift, the configured fraction of them *)
Theorem C104_training : forall frac zcal order, 0 <= frac -> frac <= 1 ->
  let gd := np_where (fun z => Qlt_bool 0 z) zcal in
  Permutation order (seq 0 (List.length gd)) ->
  let use := training frac zcal order in
  NoDup use /\ (forall i, In i use -> exists z, nth_error zcal i = Some z /\ 0 < z) /\
  Z.of_nat (List.length use) = Qfloor (frac * Qn (List.length gd)).
Proof.
  intros frac zcal order H0 H1 gd Hp use. unfold training in use. fold gd in use. set (n := Z.to_nat _) in use.
  assert (N0 : 0 <= Qn (List.length gd)) by (unfold Qn; change 0 with (inject_Z 0); rewrite <- Zle_Qle; lia).
  assert (F0 : 0 <= frac * Qn (List.length gd)) by (apply Qmult_le_0_compat; assumption).
  assert (F1 : frac * Qn (List.length gd) <= Qn (List.length gd)) by (rewrite <- (Qmult_1_l (Qn (List.length gd))) at 2; apply Qmult_le_compat_r; assumption).
  assert (En : Z.of_nat n = Qfloor (frac * Qn (List.length gd))).
  { unfold n. rewrite Qtrunc_floor by exact F0. rewrite Z2Nat.id; [reflexivity|]. rewrite <- (Qfloor_Z 0). apply Qfloor_resp_le. exact F0. }
  assert (Ln : (n <= List.length gd)%nat).
  { assert (Qfloor (frac * Qn (List.length gd)) <= Z.of_nat (List.length gd))%Z; [|lia]. rewrite <- (Qfloor_Z (Z.of_nat (List.length gd))). apply Qfloor_resp_le. exact F1. }
  assert (Lo : List.length order = List.length gd) by (rewrite (Permutation_length Hp); apply seq_length).
  assert (No : NoDup order) by (apply (Permutation_NoDup (Permutation_sym Hp)), seq_NoDup).
  assert (Io : forall i, In i (firstn n order) -> (i < List.length gd)%nat).
  { intros i Hi. assert (In i order) by (rewrite <- (firstn_skipn n order); apply in_or_app; left; exact Hi). apply (Permutation_in _ Hp), in_seq in H. lia. }
  assert (Nf : NoDup (firstn n order)) by (apply nodup_firstn, No).
  assert (Ng : NoDup gd) by apply np_where_NoDup.
  assert (Lf : List.length (firstn n order) = n) by (rewrite firstn_length; lia).
  assert (Sel : forall l, NoDup l -> (forall i, In i l -> (i < List.length gd)%nat) ->
            NoDup (np_sel gd l) /\ (forall x, In x (np_sel gd l) <-> exists i, In i l /\ nth_error gd i = Some x) /\ List.length (np_sel gd l) = List.length l).
  { induction l as [|i l IH]; intros Nl Il; [cbn; split; [constructor|split; [|reflexivity]]; intros x; split; [intros []|intros (i & [] & _)]|].
    inversion Nl as [|? ? Hni Nt]; subst. destruct (IH Nt) as (A1 & A2 & A3); [intros; apply Il; right; assumption|].
    cbn [np_sel]. destruct (nth_error gd i) as [x|] eqn:E; [|apply nth_error_None in E; specialize (Il i (or_introl eq_refl)); lia].
    split; [|split].
    - constructor; [|exact A1]. intros Hx. apply A2 in Hx. destruct Hx as (j & Hj & Ej).
      assert (i = j); [|subst; contradiction]. apply (proj1 (NoDup_nth_error gd) Ng); [apply nth_error_Some; congruence|congruence].
    - intros y. cbn. rewrite A2. split; [intros [<-|(j & Hj & Ej)]; [exists i; auto|exists j; auto]|intros (j & [<-|Hj] & Ej); [left; congruence|right; exists j; auto]].
    - cbn. lia. }
  destruct (Sel _ Nf Io) as (A1 & A2 & A3). split; [exact A1|]. split; [|rewrite <- En; unfold use; rewrite A3, Lf; reflexivity].
  intros x Hx. apply A2 in Hx. destruct Hx as (i & _ & Hi). apply nth_error_In in Hi. unfold gd in Hi. apply np_where_spec in Hi. destruct Hi as (z & Hz & Pz). exists z. split; [exact Hz|]. apply Qlt_bool_iff, Pz.
Qed.
Print Assumptions C104_training.
Example C104_example : training (1#2) [1; -(1); 2; 3; -(1); 4] [2; 0; 3; 1]%nat = [3; 0]%nat /\
  possible (fun l => - l) [1; 2] (1#10) (6#10) (5#100) (2#100) 20 (mkCG (4#10) 3 (15#1) (20#1) 20 (4#10) (4#10) 1) = true.
Proof. vm_compute. auto. Qed.
