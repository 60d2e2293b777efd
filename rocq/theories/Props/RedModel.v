(** C187: the model of the red sequence the training galaxies and the first member run are selected with. *)
From Coq Require Import QArith Qround Qabs Permutation.
From Verif.Base Require Import Py PyLemmas Sort.
From Verif.Model Require Import Richness RedModel.
From Verif.Spec Require Import RedModel.
From Verif.Proofs Require Import Richness RedModel.
From Coq Require Import Lqa Lia List. Import ListNotations.
Local Open Scope nat_scope.

(** With galaxies and modes that are colors, there is a model; its column of a mode is the fit of that color, whatever other
    modes there are and in whatever order, and zero for a color that is no mode. *)
Theorem C187_columns asort T nodes gals ncol modes : argsort_spec asort -> gals <> [] -> (forall j, In j modes -> j < ncol) ->
  exists tab, red_model asort T nodes gals ncol modes = Ok tab /\ List.length tab = ncol /\ forall j, j < ncol ->
    exists c, nth_error tab j = Some c /\ (In j modes -> fit_mode asort T nodes gals j = Ok c) /\
      (~ In j modes -> forall l x, In l [cf_med c; cf_width c; cf_mean c; cf_scat c] -> List.length l = List.length nodes /\ (In x l -> x = 0%Q)).
Proof.
  intros A N M. unfold red_model. destruct (fit_modes_total asort T nodes gals modes A N (repeat (no_fit nodes) ncol)) as (tab & E). { intros j I. rewrite repeat_length. apply M, I. }
  exists tab. split; [exact E|]. destruct (fit_modes_spec _ _ _ _ _ _ _ E) as (L & J). rewrite repeat_length in L. split; [exact L|]. intros j Lj. destruct (J j) as (J1 & J2).
  destruct (in_dec Nat.eq_dec j modes) as [I|I].
  - destruct (J1 I) as (c & C1 & C2). exists c. split; [exact C2|]. split; [intros _; exact C1|contradiction].
  - exists (no_fit nodes). rewrite (J2 I). split; [apply nth_error_repeat, Lj|]. split; [contradiction|]. intros _ l x Il. cbn in Il.
    assert (l = map (fun _ => 0%Q) nodes) as -> by (repeat (destruct Il as [<-|Il]; [reflexivity|]); destruct Il). split; [apply map_length|]. intros Ix. apply in_map_iff in Ix. destruct Ix as (? & <- & _). reflexivity.
Qed.
Print Assumptions C187_columns.
(** The order of the modes and repetitions do not matter. *)
Theorem C187_order asort T nodes gals ncol modes modes' tab : argsort_spec asort -> (forall j, In j modes <-> In j modes') ->
  red_model asort T nodes gals ncol modes = Ok tab -> red_model asort T nodes gals ncol modes' = Ok tab.
Proof.
  intros A S0 H. unfold red_model in *.
  assert (X : exists tab', fit_modes asort T nodes gals modes' (repeat (no_fit nodes) ncol) = Ok tab').
  { assert (K : forall ms t, (forall j, In j ms -> j < List.length t /\ exists c, fit_mode asort T nodes gals j = Ok c) -> exists o, fit_modes asort T nodes gals ms t = Ok o).
    { induction ms as [|m ms IH]; intros t K; [eexists; reflexivity|]. cbn [fit_modes]. destruct (K m (or_introl eq_refl)) as (L & c & ->). destruct (Nat.leb_spec (List.length t) m); [lia|]. cbn [bind]. apply IH.
      intros j I. rewrite set_nth_length. apply K. right. exact I. }
    apply K. intros j I. apply S0 in I. destruct (fit_modes_spec _ _ _ _ _ _ _ H) as (L & J). destruct (J j) as (J1 & _). destruct (J1 I) as (c & C1 & C2). split; [|eauto]. rewrite <- L. apply nth_error_Some. congruence. }
  destruct X as (tab' & E). rewrite E. f_equal. destruct (fit_modes_spec _ _ _ _ _ _ _ H) as (L & J). destruct (fit_modes_spec _ _ _ _ _ _ _ E) as (L' & J').
  apply nth_ext with (d := no_fit nodes) (d' := no_fit nodes); [congruence|]. intros j Lj.
  assert (nth_error tab' j = nth_error tab j) as Q0. { destruct (J j) as (J1 & J2), (J' j) as (K1 & K2). destruct (in_dec Nat.eq_dec j modes) as [I|I].
    - destruct (J1 I) as (c & C1 & C2). destruct (K1 (proj1 (S0 j) I)) as (c' & C1' & C2'). congruence.
    - rewrite (J2 I), K2; [reflexivity|]. intros I'. apply I, S0, I'. }
  destruct (nth_error tab' j) as [c|] eqn:E1; [|apply nth_error_None in E1; lia]. rewrite (nth_error_nth _ _ _ E1). symmetry in Q0. rewrite (nth_error_nth _ _ _ Q0). reflexivity.
Qed.
Print Assumptions C187_order.
(** The fit of a color uses no other color: samples that agree in redshift, the color, its error and the errors of its two
    magnitudes give the same fit. *)
Theorem C187_own_color asort T nodes gals gals' j : agree j gals gals' -> fit_mode asort T nodes gals j = fit_mode asort T nodes gals' j.
Proof.
  intros G. unfold fit_mode.
  assert (E : trimmed asort T j gals = trimmed asort T j gals').
  { unfold trimmed. cbv zeta. rewrite (agree_map j (fun g => (g_col g j - t_init T j (g_z g))%Q) (fun g => (g_col g j - t_init T j (g_z g))%Q) gals gals' G) by (intros; congruence).
    rewrite (agree_map j (fun g => g_err g j) (fun g => g_err g j) gals gals' G) by (intros; congruence). reflexivity. }
  rewrite E. destruct (trimmed asort T j gals') as [s|]; [|reflexivity]. cbn [bind]. destruct (t_mix T s) as [mu sigma]. cbv zeta.
  assert (NM : forall m w, agree j (near_median T nodes m w j gals) (near_median T nodes m w j gals')). { intros m w. apply agree_filter; [exact G|]. intros x y Z C. rewrite Z, C. reflexivity. }
  rewrite (agree_map j (fun g => (g_z g, g_col g j)) (fun g => (g_z g, g_col g j)) _ _ (NM _ _)) by (intros; congruence). set (med := t_med _ _ _ _).
  rewrite (agree_map j (fun g => (g_z g, Qabs (g_col g j - t_spl T nodes med (g_z g)))) (fun g => (g_z g, Qabs (g_col g j - t_spl T nodes med (g_z g)))) _ _ (NM _ _)) by (intros x y Z C; rewrite Z, C; reflexivity). set (wid := map _ _).
  assert (F : fit_sample T nodes med wid j gals = fit_sample T nodes med wid j gals').
  { unfold fit_sample. apply (agree_map j); [apply agree_filter; [exact G|]; intros x y Z C; rewrite Z, C; reflexivity|]. intros x y Z C _ E1 E2. rewrite Z, C, E1, E2. reflexivity. }
  rewrite F. reflexivity.
Qed.
Print Assumptions C187_own_color.
(** The first fit is given the galaxies whose offset lies strictly between the one at 5% and the one at 99% of the sorted
    offsets; so neither the bluest nor the reddest is in it. *)
Theorem C187_trimmed asort T j gals : argsort_spec asort -> gals <> [] -> let n := inject_Z (Z.of_nat (List.length gals)) in
  exists lo hi sample, at_rank (Z.to_nat (Qfloor ((5#100) * n))) (map (offset T j) gals) lo /\ at_rank (Z.to_nat (Qfloor ((99#100) * n))) (map (offset T j) gals) hi /\
    trimmed asort T j gals = Ok (map (fun g => (offset T j g, g_err g j)) sample) /\
    (forall g, In g sample <-> In g gals /\ (lo < offset T j g < hi)%Q) /\
    (forall g, In g sample -> (exists a, In a gals /\ (offset T j a < offset T j g)%Q) /\ exists b, In b gals /\ (offset T j g < offset T j b)%Q).
Proof.
  intros A N. cbv zeta. destruct (trimmed_ok asort T j gals A N) as (lo & hi & R1 & R2 & E). exists lo, hi. eexists. split; [exact R1|]. split; [exact R2|]. split; [exact E|].
  assert (S0 : forall g, In g (filter (fun g => (Qlt_bool lo (offset T j g) && Qlt_bool (offset T j g) hi)%bool) gals) <-> In g gals /\ (lo < offset T j g < hi)%Q).
  { intros g. rewrite filter_In, Bool.andb_true_iff, !Qlt_bool_iff. tauto. }
  split; [exact S0|]. intros g I. apply S0 in I. destruct I as (_ & I). destruct R1 as (I1 & _), R2 as (I2 & _). apply in_map_iff in I1, I2. destruct I1 as (a & E1 & I1), I2 as (b & E2 & I2).
  split; [exists a; split; [exact I1|rewrite E1; tauto]|exists b; split; [exact I2|rewrite E2; tauto]].
Qed.
Print Assumptions C187_trimmed.
(** Finding: with fewer than three galaxies the first fit is given no galaxy at all, without a word. *)
Theorem C187_few_refuted asort T j gals : argsort_spec asort -> gals <> [] -> List.length gals <= 2 -> trimmed asort T j gals = Ok [].
Proof.
  intros A N L. destruct (C187_trimmed asort T j gals A N) as (lo & hi & sample & _ & _ & -> & S0 & S1). destruct sample as [|g sample]; [reflexivity|]. exfalso.
  destruct (S1 g (or_introl eq_refl)) as ((a & Ia & La) & b & Ib & Lb). destruct (proj1 (S0 g) (or_introl eq_refl)) as (Ig & _).
  assert (a <> g) by (intros ->; lra). assert (b <> g) by (intros ->; lra). assert (a <> b) by (intros ->; lra).
  destruct gals as [|x [|y [|z gals]]]; cbn in L; try lia; cbn in Ia, Ib, Ig; intuition congruence.
Qed.
Print Assumptions C187_few_refuted.
(** No galaxy in the redshift range: the first mode stops with an error about an index; so does a mode that is not a color. *)
Theorem C187_errors asort T nodes gals ncol j modes : argsort_spec asort -> gals = [] \/ ncol <= j -> red_model asort T nodes gals ncol (j :: modes) = Err IndexError.
Proof.
  intros A [->|L]; unfold red_model; cbn [fit_modes]; rewrite repeat_length; destruct (Nat.leb_spec ncol j) as [L'|L']; try reflexivity; [|lia].
  unfold fit_mode, trimmed, at_fraction. cbn [map List.length]. pose proof (asort_length asort [] A) as Z0. destruct (asort []); [|discriminate]. destruct (Z.to_nat _); reflexivity.
Qed.
Print Assumptions C187_errors.
(** The last fits, of mean and scatter, are given the galaxies within one and a half widths of the median at their redshift,
    each with that (positive) truncation and the errors of the two magnitudes of the color; nothing outside its truncation. *)
Theorem C187_truncated T nodes med width j gals r : In r (fit_sample T nodes med width j gals) <->
  exists g, In g gals /\ r = mkFR (g_z g) (g_col g j) (g_merr g j, g_merr g (j + 1)) ((3#2) * t_spl T nodes width (g_z g)) /\ (Qabs (f_c r - t_spl T nodes med (f_z r)) < f_trunc r)%Q.
Proof.
  unfold fit_sample. rewrite in_map_iff. split.
  - intros (g & <- & I). apply filter_In in I. rewrite Qlt_bool_iff in I. exists g. split; [tauto|]. split; [reflexivity|]. cbn. tauto.
  - intros (g & I & -> & L). exists g. split; [reflexivity|]. apply filter_In. rewrite Qlt_bool_iff. auto.
Qed.
Print Assumptions C187_truncated.
Theorem C187_positive T nodes med width j gals r : In r (fit_sample T nodes med width j gals) -> (0 < f_trunc r)%Q.
Proof. intros I. apply C187_truncated in I. destruct I as (g & _ & _ & L). pose proof (Qabs_nonneg (f_c r - t_spl T nodes med (f_z r))). lra. Qed.
Print Assumptions C187_positive.
(** What is written is the fit of mean and scatter together, started from the fit of the scatter, itself started from the fit of
    the mean, all three with no slope and on the same sample. *)
Theorem C187_stages asort T nodes gals j c : fit_mode asort T nodes gals j = Ok c ->
  let rows := fit_sample T nodes (cf_med c) (cf_width c) j gals in let slope := map (fun _ => 0%Q) (cf_med c) in
  let mean := t_mean T nodes rows (cf_med c) slope (cf_width c) in
  (cf_mean c, cf_scat c) = t_both T nodes rows mean slope (t_scat T nodes rows mean slope (cf_width c)).
Proof.
  unfold fit_mode. destruct (trimmed asort T j gals) as [s|]; [|discriminate]. cbn [bind]. destruct (t_mix T s) as [mu sigma]. cbv zeta.
  set (med := t_med _ _ _ _). set (wid := map (fun s => ((14826 # 10000) * s)%Q) _). set (b := t_both _ _ _ _ _ _). destruct b as [m2 s2] eqn:E. intros H. injection H as <-. cbn [cf_med cf_width cf_mean cf_scat]. symmetry. exact E.
Qed.
Print Assumptions C187_stages.
(** The median is fitted to the galaxies within two widths of the first fit, the width (1.4826 times the median deviation) to
    those within two such widths of that median. *)
Theorem C187_medians asort T nodes gals j c : fit_mode asort T nodes gals j = Ok c -> exists sample mu sigma u v,
  trimmed asort T j gals = Ok sample /\ t_mix T sample = (mu, sigma) /\
  let line := map (fun z => (t_init T j z + mu)%Q) nodes in let width := t_spl T nodes (map (fun _ => sigma) nodes) in
  (forall g, In g u <-> In g gals /\ (Qabs (g_col g j - t_spl T nodes line (g_z g)) < 2 * width (g_z g))%Q) /\
  cf_med c = t_med T nodes (map (fun g => (g_z g, g_col g j)) u) line /\
  (forall g, In g v <-> In g gals /\ (Qabs (g_col g j - t_spl T nodes (cf_med c) (g_z g)) < 2 * width (g_z g))%Q) /\
  cf_width c = map (fun s => (14826#10000) * s)%Q (t_med T nodes (map (fun g => (g_z g, Qabs (g_col g j - t_spl T nodes (cf_med c) (g_z g)))) v) (map (fun _ => sigma) nodes)).
Proof.
  unfold fit_mode. destruct (trimmed asort T j gals) as [s|]; [|discriminate]. cbn [bind]. destruct (t_mix T s) as [mu sigma] eqn:Em. cbv zeta.
  set (line := map (fun z => (t_init T j z + mu)%Q) nodes). set (sc := map (fun _ => sigma) nodes). set (med := t_med T nodes _ line). set (wid := map (fun s => ((14826 # 10000) * s)%Q) _).
  destruct (t_both _ _ _ _ _ _) as [m2 s2]. intros H. injection H as <-. cbn [cf_med cf_width].
  assert (X : forall m g, In g (near_median T nodes m sc j gals) <-> In g gals /\ (Qabs (g_col g j - t_spl T nodes m (g_z g)) < 2 * t_spl T nodes sc (g_z g))%Q).
  { intros m g. unfold near_median. rewrite filter_In, Bool.andb_true_iff, !Qlt_bool_iff, Qabs_Qlt_condition. split; intros (I & L); (split; [exact I|]); lra. }
  exists s, mu, sigma, (near_median T nodes line sc j gals), (near_median T nodes med sc j gals). split; [reflexivity|]. split; [exact Em|]. split; [apply X|]. split; [reflexivity|]. split; [apply X|reflexivity].
Qed.
Print Assumptions C187_medians.
(** In the member run the red color of a mode at a redshift is the spline through the fitted mean over the same nodes. *)
Theorem C187_red_color asort T nodes gals ncol modes tab j z : red_model asort T nodes gals ncol modes = Ok tab -> In j modes ->
  exists c, fit_mode asort T nodes gals j = Ok c /\ nth_error (red_colors T nodes tab z) j = Some (t_spl T nodes (cf_mean c) z).
Proof.
  intros H I. destruct (fit_modes_spec _ _ _ _ _ _ _ H) as (_ & J). destruct (J j) as (J1 & _). destruct (J1 I) as (c & C1 & C2). exists c. split; [exact C1|]. unfold red_colors. rewrite nth_error_map, C2. reflexivity.
Qed.
Print Assumptions C187_red_color.
(** non-vacuity: three galaxies, the middle one in the first fit; fitters that return their starting points *)
Definition ex_fits : fits := mkFits (fun _ _ => 1%Q) (fun l => (match l with [(d, _)] => d | _ => 0 end, 1#10)%Q) (fun _ v _ => hd 0%Q v) (fun _ _ p => p) (fun _ _ m _ _ => m) (fun _ _ _ _ s => s) (fun _ _ m _ s => (m, s)).
Definition ex_gal (z c : Q) : sgal := mkSG z (fun _ => c) (fun _ => 1#100)%Q (fun _ => 1#100)%Q.
Example C187_ex : match red_model argsort ex_fits [1#10; 1#2]%Q [ex_gal (1#5) (13#10); ex_gal (1#4) (12#10); ex_gal (1#3) (9#10)] 2 [1] with
  | Ok [a; b] => cf_mean a = [0; 0]%Q /\ map Qred (cf_mean b) = [6#5; 6#5]%Q /\ map Qred (cf_width b) = [7413#50000; 7413#50000]%Q
  | _ => False end.
Proof. vm_compute. auto. Qed.
