(** C105-C107: the fit of the redshift corrections. *)
From Coq Require Import Reals Lra Permutation Sorted.
From Verif.Base Require Import Py PyLemmas.
From Verif.Model Require Import BkgGen Richness MaskCorr CorrFit.
From Verif.Spec Require Import Solver CorrFit.
From Verif.Proofs Require Import Richness CorrFit.
From Coq Require Import Lra Lia List. Import ListNotations.
Local Open Scope R_scope.

(** * C105 *)
(** C105: a set of corrections that predicts the offset of every galaxy at least as closely, with the same errors and background,
    has at most the same cost, *)
Theorem C105_closer : forall spl nd obs p q,
  (forall o, In o obs -> co_err o <> 0 /\ 0 <= co_prob o <= 1 /\ 0 < co_w o /\ spl (nd_r nd) (cp_r p) (co_z o) <> 0) ->
  cp_r p = cp_r q -> cp_bkg p = cp_bkg q ->
  (forall o, In o obs ->
     Rabs (co_dz o - (spl (nd_mean nd) (cp_mean p) (co_z o) + spl (nd_slope nd) (cp_slope p) (co_z o) * co_dmag o)) <=
     Rabs (co_dz o - (spl (nd_mean nd) (cp_mean q) (co_z o) + spl (nd_slope nd) (cp_slope q) (co_z o) * co_dmag o))) ->
  cost spl nd obs p <= cost spl nd obs q.
Proof.
  intros spl nd obs p q H Er Eb Hd. unfold cost. rewrite !lsum_Rsum. apply Ropp_le_contravar.
  induction obs as [|o obs IH]; [cbn; lra|]. cbn [map Rsum]. apply Rplus_le_compat.
  2:{ apply IH; intros; [apply H|apply Hd]; right; assumption. }
  destruct (H o (or_introl eq_refl)) as (He & Hp & Hw & Hr). specialize (Hd o (or_introl eq_refl)).
  destruct (lik_eq spl nd p o Hr He Hp Hw) as (g0 & g1 & E0 & E1 & P0 & P1 & EL & PL).
  rewrite Er in Hr. destruct (lik_eq spl nd q o Hr He Hp Hw) as (h0 & h1 & F0 & F1 & Q0 & Q1 & FL & QL).
  rewrite Eb in E1. rewrite E1 in F1. injection F1 as <-. rewrite Er in E0.
  assert (V : 0 < (spl (nd_r nd) (cp_r q) (co_z o) * co_err o) ^ 2) by (apply sq_pos, Rmult_integral_contrapositive_currified; assumption).
  destruct (normal_mono _ _ _ V Hd) as (a & b & A & B & L & _). rewrite E0 in A. rewrite F0 in B. injection A as <-. injection B as <-.
  rewrite EL, FL. assert (M : co_w o * (co_prob o * h0 + (1 - co_prob o) * g1) <= co_w o * (co_prob o * g0 + (1 - co_prob o) * g1)).
  { apply Rmult_le_compat_l; [lra|]. apply Rplus_le_compat_r. apply Rmult_le_compat_l; lra. }
  assert (P : 0 < co_w o * (co_prob o * h0 + (1 - co_prob o) * g1)) by (apply Rmult_lt_0_compat; assumption).
  destruct (Rle_lt_or_eq_dec _ _ M) as [M'|M']; [left; apply ln_increasing; assumption|rewrite M'; lra].
Qed.
Print Assumptions C105_closer.
(** and galaxies that are certainly not members do not constrain the offset, the slope or the errors. *)
Theorem C105_non_members : forall spl nd o p q, co_prob o = 0 -> co_err o <> 0 -> 0 < co_w o ->
  spl (nd_r nd) (cp_r p) (co_z o) <> 0 -> spl (nd_r nd) (cp_r q) (co_z o) <> 0 -> cp_bkg p = cp_bkg q ->
  cost spl nd [o] p = cost spl nd [o] q.
Proof.
  intros spl nd o p q Hp He Hw Hr Hr' Eb. assert (Hp' : 0 <= co_prob o <= 1) by lra.
  destruct (lik_eq spl nd p o Hr He Hp' Hw) as (g0 & g1 & E0 & E1 & P0 & P1 & EL & PL).
  destruct (lik_eq spl nd q o Hr' He Hp' Hw) as (h0 & h1 & F0 & F1 & Q0 & Q1 & FL & QL).
  rewrite Eb, F1 in E1. injection E1 as <-. unfold cost. cbn [map]. rewrite EL, FL, Hp. do 3 f_equal. f_equal. f_equal. lra.
Qed.
Print Assumptions C105_non_members.
(** Finding: the weights of the galaxies have no effect on the fit: whatever (positive) weights are given, the cost of any set of
    corrections relative to any other is the one without weights, as the likelihood is multiplied by the weight instead of its
    logarithm. *)
Theorem C105_weights_refuted : forall spl nd (obs : list cobs) (ws : cobs -> R) p q,
  (forall o, In o obs -> co_err o <> 0 /\ 0 <= co_prob o <= 1 /\ 0 < co_w o /\ 0 < ws o /\
     spl (nd_r nd) (cp_r p) (co_z o) <> 0 /\ spl (nd_r nd) (cp_r q) (co_z o) <> 0) ->
  let reweighted := map (fun o => mkCO (co_z o) (co_dz o) (co_err o) (co_prob o) (co_dmag o) (ws o)) obs in
  cost spl nd reweighted p - cost spl nd reweighted q = cost spl nd obs p - cost spl nd obs q.
Proof.
  intros spl nd obs ws p q H. cbv zeta. unfold cost. rewrite !lsum_Rsum. induction obs as [|o obs IH]; [cbn; lra|]. cbn [map Rsum].
  set (o' := mkCO _ _ _ _ _ _). destruct (H o (or_introl eq_refl)) as (He & Hp & Hw & Hw' & Hr & Hr').
  destruct (lik_eq spl nd p o Hr He Hp Hw) as (g0 & g1 & E0 & E1 & P0 & P1 & EL & PL).
  destruct (lik_eq spl nd q o Hr' He Hp Hw) as (h0 & h1 & F0 & F1 & Q0 & Q1 & FL & QL).
  destruct (lik_eq spl nd p o' Hr He Hp Hw') as (a0 & a1 & A0 & A1 & _ & _ & AL & _). change (co_z o') with (co_z o) in *. change (co_dz o') with (co_dz o) in *. change (co_err o') with (co_err o) in *. change (co_dmag o') with (co_dmag o) in *.
  destruct (lik_eq spl nd q o' Hr' He Hp Hw') as (b0 & b1 & B0 & B1 & _ & _ & BL & _). change (co_z o') with (co_z o) in *. change (co_dz o') with (co_dz o) in *. change (co_err o') with (co_err o) in *. change (co_dmag o') with (co_dmag o) in *.
  rewrite E0 in A0; injection A0 as <-. rewrite E1 in A1; injection A1 as <-. rewrite F0 in B0; injection B0 as <-. rewrite F1 in B1; injection B1 as <-.
  change (co_w o') with (ws o) in *. change (co_prob o') with (co_prob o) in *.
  rewrite EL, FL, AL, BL, !ln_mult by assumption.
  assert (IH' := IH (fun x Hx => H x (or_intror Hx))). lra.
Qed.
Print Assumptions C105_weights_refuted.
(** a galaxy that two sets of corrections describe equally well except for the offset *)
Example C105_example : let nd := mkCN [0] [0] [0] [0] in let spl := fun (n v : list R) (z : R) => nth 0 v 0 in
  let o := mkCO (1/2) (1/10) (1/100) (9/10) 0 1 in
  cost spl nd [o] (mkCP [1/10] [0] [1] [1/100]) <= cost spl nd [o] (mkCP [0] [0] [1] [1/100]).
Proof.
  cbv zeta. apply C105_closer; cbn; try reflexivity.
  - intros o [<-|[]]. cbn. repeat split; lra.
  - intros o [<-|[]]. cbn. replace (1/10 - (1/10 + 0 * 0)) with 0 by lra. rewrite Rabs_R0. apply Rabs_pos.
Qed.

(** * C106 *)
(** C106: a fit returns the sets of values that were asked for and only them, in order, each with a value per node, the error
    factors and backgrounds in their ranges; what is not fitted is kept at the values given; and the fit is not worse than
    these. *)
Theorem C106_fit : forall spl nd minimize mean slope r bkg obs p, optimiser minimize -> matches nd p -> allowed p ->
  (mean = true /\ nd_mean nd <> [] \/ slope = true /\ nd_slope nd <> [] \/ r = true /\ nd_r nd <> [] \/ bkg = true /\ nd_bkg nd <> []) ->
  exists q, fit spl nd minimize (mkCF mean slope r bkg) p obs = Ok (groups mean slope r bkg q) /\ matches nd q /\ allowed q /\
    cost spl nd obs q <= cost spl nd obs p /\
    (mean = false -> cp_mean q = cp_mean p) /\ (slope = false -> cp_slope q = cp_slope p) /\ (r = false -> cp_r q = cp_r p) /\ (bkg = false -> cp_bkg q = cp_bkg p).
Proof.
  intros spl nd minimize mean slope r bkg obs p HO Hm Ha Hc. apply (fit_ok spl nd (mkCF mean slope r bkg) minimize obs p HO Hm Ha).
  unfold ctr, bkg_at, r_at, slope_at, cnt. cbn [cf_mean cf_slope cf_r cf_bkg].
  destruct Hc as [[-> Hn]|[[-> Hn]|[[-> Hn]|[-> Hn]]]]; match type of Hn with ?l <> [] => destruct l; [congruence|cbn [List.length]; lia] end.
Qed.
Print Assumptions C106_fit.
Theorem C106_nothing : forall spl nd minimize p obs, fit spl nd minimize (mkCF false false false false) p obs = Err ValueError.
Proof. reflexivity. Qed.
Print Assumptions C106_nothing.
(** Finding: the starting values of each set are not checked against its nodes, only their total number: values for the offset
    and for the slope that are one too many and one too few are accepted, and the last of the first is taken as the first of the
    second. *)
Theorem C106_lengths_refuted : exists nd p obs,
  ~ matches nd p /\ fit (fun _ _ _ => 1) nd (fun _ x _ => x) (mkCF true true false false) p obs = Ok [[1; 2]; [3; 4]] /\ cp_mean p = [1; 2; 3] /\ cp_slope p = [4].
Proof. exists (mkCN [0; 1] [0; 1] [0] [0]), (mkCP [1; 2; 3] [4] [1] [1]), []. split; [intros (A & _); cbn in A; discriminate|]. repeat split; reflexivity. Qed.
Print Assumptions C106_lengths_refuted.
(** the nodes by default *)
Theorem C106_nodes : forall mean s r b,
  nodes_of mean None None None = mkCN mean mean mean mean /\ nodes_of mean (Some s) None None = mkCN mean s s s /\ nodes_of mean (Some s) (Some r) (Some b) = mkCN mean s r b.
Proof. auto. Qed.
Print Assumptions C106_nodes.
(** an optimiser, and values of the right numbers *)
Example C106_example : optimiser (fun _ x _ => x) /\ matches (mkCN [0; 1] [0] [0] [0]) (mkCP [0; 0] [0] [1] [0]) /\ allowed (mkCP [0; 0] [0] [1] [0]).
Proof.
  split; [intros f p0 bs H; split; [exact H|lra]|]. split; [repeat split|]. split; intros v [<-|[]]; lra.
Qed.

(** * C107 *)
(** C107: the corrections recorded are not worse than the starting values, with a value per node, error factors between 0.1 and
    2, and the slopes untouched when they are not to be fitted. *)
Theorem C107_recorded : forall spl nd minimize noslope obs p, optimiser minimize -> matches nd p -> allowed p ->
  nd_mean nd <> [] -> nd_slope nd <> [] -> nd_r nd <> [] -> nd_bkg nd <> [] ->
  exists q, stages spl nd minimize noslope p obs = Ok q /\ matches nd q /\ allowed q /\ cost spl nd obs q <= cost spl nd obs p /\
    (noslope = true -> cp_slope q = cp_slope p).
Proof.
  intros spl nd minimize noslope obs p HO Hm Ha N1 N2 N3 N4.
  destruct (C106_fit spl nd minimize true false false false obs p HO Hm Ha ltac:(auto)) as (q1 & E1 & M1 & A1 & L1 & _ & S1 & R1 & B1).
  unfold stages. rewrite E1. cbn [groups app bind one]. rewrite <- S1, <- R1, <- B1 by reflexivity.
  assert (Q1 : mkCP (cp_mean q1) (cp_slope q1) (cp_r q1) (cp_bkg q1) = q1) by (destruct q1; reflexivity). rewrite Q1. cbv zeta.
  assert (H2 : exists q2, (if noslope then Ok (cp_slope q1) else do l <- fit spl nd minimize (mkCF false true false false) q1 obs; one l) = Ok (cp_slope q2) /\
    mkCP (cp_mean q1) (cp_slope q2) (cp_r q1) (cp_bkg q1) = q2 /\ matches nd q2 /\ allowed q2 /\ cost spl nd obs q2 <= cost spl nd obs q1 /\ (noslope = true -> cp_slope q2 = cp_slope q1)).
  { destruct noslope; [exists q1; rewrite Q1; repeat (split; auto with real); lra|].
    destruct (C106_fit spl nd minimize false true false false obs q1 HO M1 A1 ltac:(auto)) as (q2 & E2 & M2 & A2 & L2 & X2 & _ & R2 & B2).
    exists q2. rewrite E2. cbn. split; [reflexivity|]. split; [rewrite <- X2, <- R2, <- B2 by reflexivity; destruct q2; reflexivity|]. repeat (split; auto). discriminate. }
  destruct H2 as (q2 & E2 & Q2 & M2 & A2 & L2 & S2). rewrite E2. cbn [bind]. rewrite Q2.
  destruct (C106_fit spl nd minimize false false true false obs q2 HO M2 A2 ltac:(auto)) as (q3 & E3 & M3 & A3 & L3 & X3 & S3 & _ & B3).
  rewrite E3. cbn [groups app bind one]. rewrite <- X3, <- S3, <- B3 by reflexivity.
  assert (Q3 : mkCP (cp_mean q3) (cp_slope q3) (cp_r q3) (cp_bkg q3) = q3) by (destruct q3; reflexivity). rewrite Q3.
  destruct (C106_fit spl nd minimize false false false true obs q3 HO M3 A3 ltac:(auto)) as (q4 & E4 & M4 & A4 & L4 & X4 & S4 & R4 & _).
  rewrite E4. cbn [groups app bind one]. rewrite <- X4, <- S4, <- R4 by reflexivity.
  assert (Q4 : mkCP (cp_mean q4) (cp_slope q4) (cp_r q4) (cp_bkg q4) = q4) by (destruct q4; reflexivity). rewrite Q4.
  destruct noslope.
  - destruct (C106_fit spl nd minimize true false true true obs q4 HO M4 A4 ltac:(auto)) as (q5 & E5 & M5 & A5 & L5 & _ & S5 & _ & _).
    rewrite E5. cbn [groups app bind]. rewrite <- S5 by reflexivity. exists q5. split; [destruct q5; reflexivity|]. split; [exact M5|]. split; [exact A5|]. split; [lra|].
    intros _. rewrite S5, S4, S3, S2, S1 by reflexivity. reflexivity.
  - destruct (C106_fit spl nd minimize true true true true obs q4 HO M4 A4 ltac:(auto)) as (q5 & E5 & M5 & A5 & L5 & _).
    rewrite E5. cbn [groups app bind]. exists q5. split; [destruct q5; reflexivity|]. split; [exact M5|]. split; [exact A5|]. split; [lra|discriminate].
Qed.
Print Assumptions C107_recorded.
(** The galaxies used are those above a threshold in likelihood and within two sigma of their redshift; the threshold is the
    likelihood of one of the galaxies, with a twentieth of them (rounded down) or fewer below it. Their weights are between 1/2
    and 1. *)
Theorem C107_sample : forall st gs, gs <> [] -> sorts st (map rg_lkhd gs) ->
  exists t l, sample st gs = Ok l /\ (exists g, In g gs /\ rg_lkhd g = t) /\
    (count (fun g => Rltb (rg_lkhd g) t) gs <= List.length gs / 20 < count (fun g => Rleb (rg_lkhd g) t) gs)%nat /\
    map fst l = filter (fun g => Rltb t (rg_lkhd g) && Rltb (Rabs (rg_z g - rg_zred g)) (2 * rg_zerr g)) gs /\
    forall g w, In (g, w) l -> 1/2 < w < 1.
Proof.
  intros st gs Hne (HP & HS). rewrite map_length in HP.
  assert (HN : (0 < List.length gs)%nat) by (destruct gs; [congruence|cbn; lia]).
  assert (Hk : (5 * List.length gs / 100 = List.length gs / 20)%nat) by (change 100%nat with (5 * 20)%nat; apply Nat.div_mul_cancel_l; lia).
  assert (Hlt : (List.length gs / 20 < List.length gs)%nat) by (apply Nat.div_lt; lia).
  assert (HL : List.length st = List.length gs) by (rewrite (Permutation_length HP); apply seq_length).
  unfold sample, threshold. rewrite Hk. destruct (nth_error st (List.length gs / 20)) as [i|] eqn:Ei; [|apply nth_error_None in Ei; lia].
  assert (Hi : (i < List.length gs)%nat) by (apply nth_error_In in Ei; apply (Permutation_in _ HP), in_seq in Ei; lia).
  destruct (nth_error gs i) as [g|] eqn:Eg; [|apply nth_error_None in Eg; lia]. cbn [bind].
  exists (rg_lkhd g). eexists. split; [reflexivity|]. split; [exists g; split; [eapply nth_error_In, Eg|reflexivity]|]. split; [|split].
  - assert (EN : nth_error (map (fun i => nth i (map rg_lkhd gs) 0) st) (List.length gs / 20) = Some (rg_lkhd g)).
    { rewrite nth_error_map, Ei. cbn. f_equal. apply nth_error_nth. rewrite nth_error_map, Eg. reflexivity. }
    assert (LT : forall x, Rltb x (rg_lkhd g) = true <-> x < rg_lkhd g) by (intros x; unfold Rltb; destruct (Rlt_dec x (rg_lkhd g)); split; intros; try discriminate; try contradiction; auto).
    assert (LE : forall x, Rleb x (rg_lkhd g) = true <-> x <= rg_lkhd g) by (intros x; unfold Rleb; destruct (Rle_dec x (rg_lkhd g)); split; intros; try discriminate; try contradiction; auto).
    destruct (sorted_split _ _ _ _ _ LT LE HS EN) as [A B].
    assert (PM : Permutation (map (fun i => nth i (map rg_lkhd gs) 0) st) (map rg_lkhd gs)).
    { eapply perm_trans; [apply Permutation_map, HP|]. apply eq_ind with (P := fun l => Permutation l (map rg_lkhd gs)) (x := map rg_lkhd gs); [reflexivity|].
      clear. rewrite <- (map_length rg_lkhd gs). generalize (map rg_lkhd gs). intros l. induction l as [|x l IH]; [reflexivity|]. cbn [List.length seq map nth]. f_equal. rewrite <- seq_shift, map_map. exact IH. }
    rewrite (count_perm _ _ _ PM), count_map in A. rewrite (count_perm _ _ _ PM), count_map in B. auto.
  - rewrite map_map. cbn. apply map_id.
  - intros h w Hin. apply in_map_iff in Hin. destruct Hin as (h' & E & Hh). injection E as <- <-. apply filter_In in Hh. destruct Hh as [_ Hu].
    apply andb_prop in Hu. destruct Hu as [Hu _]. unfold Rltb in Hu. destruct (Rlt_dec (rg_lkhd g) (rg_lkhd h')) as [L|]; [|discriminate].
    unfold fit_weight. set (x := (rg_lkhd g - rg_lkhd h') / (2 / 10)). assert (X : x < 0) by (unfold x; apply Ropp_lt_cancel; rewrite Ropp_0, <- Ropp_div; apply Rdiv_lt_0_compat; lra).
    pose proof (exp_pos x) as P. assert (P1 : exp x < 1) by (rewrite <- exp_0; apply exp_increasing, X). split.
    + unfold Rdiv at 2. rewrite Rmult_1_l. replace (1 / 2) with (/ 2) by lra. apply Rinv_lt_contravar; [lra|lra].
    + unfold Rdiv. rewrite Rmult_1_l, <- Rinv_1. apply Rinv_lt_contravar; lra.
Qed.
Print Assumptions C107_sample.
(** Finding: at least one galaxy is always left out, and all those of the same likelihood with it: if all galaxies have the same
    likelihood none is used. *)
Theorem C107_ties_refuted : forall st gs t l, (forall g, In g gs -> rg_lkhd g = t) -> sample st gs = Ok l -> l = [].
Proof.
  intros st gs t l H E. unfold sample, threshold in E. destruct (nth_error st _) as [i|]; [|discriminate]. destruct (nth_error gs i) as [g|] eqn:Eg; [|discriminate].
  cbn [bind] in E. injection E as <-. rewrite (H g) by (eapply nth_error_In, Eg). clear Eg g.
  assert (F : filter (used t) gs = []); [|rewrite F; reflexivity]. induction gs as [|x gs IH]; [reflexivity|]. cbn [filter].
  assert (U : used t x = false); [|rewrite U; apply IH; intros; apply H; right; assumption].
  unfold used. rewrite (H x (or_introl eq_refl)). unfold Rltb at 1. destruct (Rlt_dec t t) as [L|]; [lra|]. reflexivity.
Qed.
Print Assumptions C107_ties_refuted.
Example C107_example : sorts [1; 0]%nat (map rg_lkhd [mkRG 2 (1/2) (1/2) (1/10); mkRG 1 (1/2) (1/2) (1/10)]).
Proof. split; [cbn; constructor|]. cbn. repeat constructor; lra. Qed.
