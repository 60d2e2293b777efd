(** C133, C134: the fit of the corrections of cluster redshifts. *)
From Coq Require Import Reals Lra.
From Verif.Base Require Import Py PyLemmas.
From Verif.Model Require Import ZLamFit.
From Verif.Spec Require Import ZLamFit.
From Verif.Proofs Require Import ZLamFit.
From Coq Require Import Lia List. Import ListNotations.
Local Open Scope R_scope.

(** * C133 *)
(** C133: the fit returns the selected kinds of parameters, in order, one number per node, and all numbers the optimiser found. *)
Theorem C133_shape : forall spl under nodes snodes obs ms fd fs fc p0d p0s p0c opt,
  fd || fs || fc = true -> keeps_length opt -> List.length p0d = List.length nodes -> List.length p0s = List.length snodes -> List.length p0c = List.length snodes ->
  exists out, zfit spl under nodes snodes obs ms fd fs fc p0d p0s p0c opt = Ok out /\
    map (@List.length R) out = (if fd then [List.length nodes] else []) ++ (if fs then [List.length snodes] else []) ++ (if fc then [List.length snodes] else []) /\
    List.concat out = opt (objective spl under nodes snodes obs ms fd fs fc p0d p0s p0c) (start fd fs fc p0d p0s p0c).
Proof.
  intros spl under nodes snodes obs ms fd fs fc p0d p0s p0c opt Hf Hk Hd Hs Hc. unfold zfit. rewrite Hf. cbn [negb]. eexists. split; [reflexivity|].
  pose proof (Hk (objective spl under nodes snodes obs ms fd fs fc p0d p0s p0c) (start fd fs fc p0d p0s p0c)) as L. revert L. generalize (opt (objective spl under nodes snodes obs ms fd fs fc p0d p0s p0c) (start fd fs fc p0d p0s p0c)). intros pars L.
  unfold start in L. rewrite !app_length in L. unfold n_d, n_s.
  assert (Z : forall l : list R, List.length l = 0%nat -> l = []) by (intros [|x l] H; [reflexivity|discriminate]).
  destruct fd, fs, fc; cbn [app map List.concat List.length plus] in *; try discriminate; (split; [rewrite ?slice_length by lia; reflexivity|]); rewrite ?app_nil_r, ?Nat.add_0_r.
  - apply slice_all. lia.
  - apply slice_two. lia.
  - apply slice_two. lia.
  - unfold slice. cbn [skipn]. apply firstn_all2. lia.
  - apply slice_two. lia.
  - unfold slice. cbn [skipn]. apply firstn_all2. lia.
  - unfold slice. cbn [skipn]. apply firstn_all2. lia.
Qed.
Print Assumptions C133_shape.
(** C133: with nothing selected it refuses. *)
Theorem C133_nothing : forall spl under nodes snodes obs ms p0d p0s p0c opt, zfit spl under nodes snodes obs ms false false false p0d p0s p0c opt = Err ValueError.
Proof. reflexivity. Qed.
Print Assumptions C133_nothing.
(** C133: what is minimised over the selected parameters [d], [s], [c] is the likelihood of all the clusters, with the other parameters
    at the values given. *)
Theorem C133_objective : forall spl under nodes snodes obs ms fd fs fc p0d p0s p0c d s c,
  List.length d = List.length nodes -> List.length s = List.length snodes -> List.length c = List.length snodes ->
  (fd = false -> d = p0d) -> (fs = false -> s = p0s) -> (fc = false -> c = p0c) -> (forall x, In x c -> ms <= x) ->
  (forall o, In o obs -> let v := Rmax (spl snodes c (o_z o)) ms ^ 2 + o_e2 o in let r := o_dz o - (spl nodes d (o_z o) + spl snodes s (o_z o) * o_ll o) in
     0 < v /\ r ^ 2 / (2 * v) <= under) ->
  objective spl under nodes snodes obs ms fd fs fc p0d p0s p0c (start fd fs fc d s c) =
  fold_right Rplus 0 (map (fun o => - log_gauss (Rmax (spl snodes c (o_z o)) ms ^ 2 + o_e2 o) (o_dz o - (spl nodes d (o_z o) + spl snodes s (o_z o) * o_ll o))) obs).
Proof.
  intros spl under nodes snodes obs ms fd fs fc p0d p0s p0c d s c Ld Ls Lc Hd Hs Hc Hm Ho. unfold objective.
  assert (Ed : (if fd then slice 0 (List.length nodes) (start fd fs fc d s c) else p0d) = d).
  { destruct fd; [|symmetry; auto]. unfold start. change (d ++ ?x) with ([] ++ d ++ x). apply slice_mid; [reflexivity|congruence]. }
  assert (Es : (if fs then slice (n_d nodes fd) (List.length snodes) (start fd fs fc d s c) else p0s) = s).
  { destruct fs; [|symmetry; auto]. unfold start, n_d. apply slice_mid; [destruct fd; [congruence|reflexivity]|congruence]. }
  assert (Ec : (if fc then slice (n_d nodes fd + n_s snodes fs) (List.length snodes) (start fd fs fc d s c) else p0c) = c).
  { destruct fc; [|symmetry; auto]. unfold start, n_d, n_s. rewrite app_assoc. apply slice_last; [rewrite app_length; destruct fd, fs; cbn [List.length]; lia|congruence]. }
  assert (Ep : (if fc then (if existsb (fun x => if Rlt_dec x ms then true else false) (slice (n_d nodes fd + n_s snodes fs) (List.length snodes) (start fd fs fc d s c)) then 10000 else 0) else 0) = 0).
  { destruct fc; [|reflexivity]. rewrite Ec. destruct (existsb _ c) eqn:E; [|reflexivity]. exfalso. apply existsb_exists in E. destruct E as (x & Hx & Ex). specialize (Hm x Hx). destruct (Rlt_dec x ms); [lra|discriminate]. }
  rewrite Ep, Rplus_0_r. unfold at_scatter, at_delta, at_slope. rewrite Ed, Es, Ec. clear Ed Es Ec Ep Hd Hs Hc Hm.
  induction obs as [|o t IH]; cbn [map fold_right]; [lra|]. rewrite Ropp_plus_distr. f_equal; [|apply IH; intros; apply Ho; right; assumption].
  destruct (Ho o (or_introl eq_refl)) as [H1 H2]. rewrite val_gauss by assumption. reflexivity.
Qed.
Print Assumptions C133_objective.
(** C133: a fit never makes the likelihood worse. *)
Theorem C133_better : forall spl under nodes snodes obs ms fd fs fc p0d p0s p0c opt out,
  keeps_length opt -> never_worse opt -> List.length p0d = List.length nodes -> List.length p0s = List.length snodes -> List.length p0c = List.length snodes ->
  zfit spl under nodes snodes obs ms fd fs fc p0d p0s p0c opt = Ok out ->
  objective spl under nodes snodes obs ms fd fs fc p0d p0s p0c (List.concat out) <= objective spl under nodes snodes obs ms fd fs fc p0d p0s p0c (start fd fs fc p0d p0s p0c).
Proof.
  intros spl under nodes snodes obs ms fd fs fc p0d p0s p0c opt out Hk Hw Hd Hs Hc E. destruct (fd || fs || fc) eqn:F.
  - destruct (C133_shape spl under nodes snodes obs ms fd fs fc p0d p0s p0c opt F Hk Hd Hs Hc) as (o & E' & _ & L). rewrite E in E'. injection E' as <-. rewrite L. apply Hw.
  - unfold zfit in E. rewrite F in E. discriminate.
Qed.
Print Assumptions C133_better.
(** C133: lists of different lengths are refused, and a list of clusters has one entry for each. *)
Theorem C133_obs : forall z dz e ll, List.length z = List.length dz -> List.length z = List.length e -> List.length z = List.length ll ->
  exists obs, make_obs z dz e ll = Ok obs /\ List.length obs = List.length z /\
    forall i, (i < List.length z)%nat -> nth i obs (mkZO 0 0 0 0) = mkZO (nth i z 0) (nth i dz 0) (nth i e 0 ^ 2) (nth i ll 0).
Proof.
  intros z dz e ll H1 H2 H3. unfold make_obs. rewrite <- H1, <- H2, <- H3, Nat.eqb_refl. cbn [negb]. eexists. split; [reflexivity|].
  split; [rewrite map_length, !combine_length; lia|]. intros i Hi.
  rewrite nth_indep with (d' := (fun q : R * R * R * R => mkZO (fst (fst (fst q))) (snd (fst (fst q))) (snd (fst q) ^ 2) (snd q)) (0, 0, 0, 0)) by (rewrite map_length, !combine_length; lia).
  rewrite map_nth with (f := fun q : R * R * R * R => mkZO (fst (fst (fst q))) (snd (fst (fst q))) (snd (fst q) ^ 2) (snd q)).
  rewrite !combine_nth by (rewrite ?combine_length; lia). reflexivity.
Qed.
Print Assumptions C133_obs.
Theorem C133_obs_errors : forall z dz e ll, (List.length z <> List.length dz \/ List.length z <> List.length e \/ List.length z <> List.length ll) -> make_obs z dz e ll = Err ValueError.
Proof.
  intros z dz e ll H. unfold make_obs. destruct (Nat.eqb_spec (List.length z) (List.length dz)); [|reflexivity]. destruct (Nat.eqb_spec (List.length z) (List.length e)); [|reflexivity].
  destruct (Nat.eqb_spec (List.length z) (List.length ll)); [|reflexivity]. tauto.
Qed.
Print Assumptions C133_obs_errors.
(** a fit of offsets and scatters with two nodes *)
Example C133_ex : zfit (fun _ _ _ => 0) 745 [1; 2] [1; 2; 3] [] 0 true false true [10; 20] [0; 0; 0] [1; 1; 1] (fun _ x => map (fun v => v + 1) x) = Ok [[10 + 1; 20 + 1]; [1 + 1; 1 + 1; 1 + 1]].
Proof. reflexivity. Qed.

(** * C134 *)
(** C134: a scatter below the minimum is only returned where it improves the logarithm of the likelihood by 10000. *)
Theorem C134_scatter : forall spl under nodes snodes obs ms fd fs p0d p0s p0c opt out c,
  keeps_length opt -> never_worse opt -> List.length p0d = List.length nodes -> List.length p0s = List.length snodes -> List.length p0c = List.length snodes ->
  (forall x, In x p0c -> ms <= x) -> zfit spl under nodes snodes obs ms fd fs true p0d p0s p0c opt = Ok (out ++ [c]) ->
  (forall x, In x c -> ms <= x) \/
  objective spl under nodes snodes obs ms fd fs true p0d p0s p0c (List.concat (out ++ [c])) <= objective spl under nodes snodes obs ms fd fs true p0d p0s p0c (start fd fs true p0d p0s p0c)
  /\ - fold_right Rplus 0 (map (fun o => val under (at_scatter spl nodes snodes ms fd fs true p0c (List.concat (out ++ [c])) (o_z o) ^ 2 + o_e2 o)
       (o_dz o - (at_delta spl nodes fd p0d (List.concat (out ++ [c])) (o_z o) + at_slope spl nodes snodes fd fs p0s (List.concat (out ++ [c])) (o_z o) * o_ll o))) obs) + 10000
     <= - fold_right Rplus 0 (map (fun o => val under (at_scatter spl nodes snodes ms fd fs true p0c (start fd fs true p0d p0s p0c) (o_z o) ^ 2 + o_e2 o)
       (o_dz o - (at_delta spl nodes fd p0d (start fd fs true p0d p0s p0c) (o_z o) + at_slope spl nodes snodes fd fs p0s (start fd fs true p0d p0s p0c) (o_z o) * o_ll o))) obs).
Proof.
  intros spl under nodes snodes obs ms fd fs p0d p0s p0c opt out c Hk Hw Hd Hs Hc Hm E.
  pose proof (C133_better spl under nodes snodes obs ms fd fs true p0d p0s p0c opt _ Hk Hw Hd Hs Hc E) as B.
  destruct (existsb (fun x => if Rlt_dec x ms then true else false) c) eqn:X.
  - right. split; [exact B|].
    assert (F : fd || fs || true = true) by (destruct fd, fs; reflexivity).
    destruct (C133_shape spl under nodes snodes obs ms fd fs true p0d p0s p0c opt F Hk Hd Hs Hc) as (o & E' & _ & L). rewrite E in E'. injection E' as <-.
    assert (Ec : slice (n_d nodes fd + n_s snodes fs) (List.length snodes) (List.concat (out ++ [c])) = c).
    { rewrite L. unfold zfit in E. rewrite F in E. cbn [negb] in E. match type of E with Ok ?x = Ok ?y => assert (Eo : y = x) by congruence end. rewrite app_assoc in Eo. apply app_inj_tail in Eo. symmetry. apply Eo. }
    unfold objective in B. rewrite Ec, X in B.
    assert (Es : existsb (fun x => if Rlt_dec x ms then true else false) (slice (n_d nodes fd + n_s snodes fs) (List.length snodes) (start fd fs true p0d p0s p0c)) = false).
    { assert (Eq : slice (n_d nodes fd + n_s snodes fs) (List.length snodes) (start fd fs true p0d p0s p0c) = p0c).
      { unfold start, n_d, n_s. rewrite app_assoc. apply slice_last; [rewrite app_length; destruct fd, fs; cbn [List.length]; lia|congruence]. }
      rewrite Eq. apply Bool.not_true_iff_false. intros Y. apply existsb_exists in Y. destruct Y as (x & Hx & Ex). specialize (Hm x Hx). destruct (Rlt_dec x ms); [lra|discriminate]. }
    rewrite Es in B. rewrite Rplus_0_r in B. exact B.
  - left. intros x Hx. destruct (Rle_lt_dec ms x) as [|Lt]; [assumption|]. exfalso. apply Bool.not_true_iff_false in X. apply X. apply existsb_exists. exists x. split; [exact Hx|]. destruct (Rlt_dec x ms); [reflexivity|lra].
Qed.
Print Assumptions C134_scatter.
(** C134, while no exponential underflows: a correction that is closer to the offset of a cluster makes it more likely. *)
Theorem C134_closer_partial : forall under v d d', 0 < v -> d' ^ 2 / (2 * v) <= under -> Rabs d < Rabs d' -> val under v d' < val under v d.
Proof.
  intros under v d d' Hv Hu Hd. assert (Q : d ^ 2 < d' ^ 2) by (rewrite <- (pow2_abs d), <- (pow2_abs d'); pose proof (Rabs_pos d); nra).
  assert (D : d ^ 2 / (2 * v) < d' ^ 2 / (2 * v)) by (apply Rmult_lt_compat_r; [apply Rinv_0_lt_compat; lra|exact Q]).
  rewrite !val_gauss by lra. unfold log_gauss. lra.
Qed.
Print Assumptions C134_closer_partial.
(** Finding: a cluster so far from the correction that its exponential underflows counts as a fixed -100, so it counts much less than
    a cluster that is nearer: from there the fit gains by moving away from it. *)
Theorem C134_closer_refuted : forall under, 200 < under -> exists v d d', 0 < v /\ Rabs d < Rabs d' /\ val under v d < val under v d'.
Proof.
  intros under Hu. pose proof PI_RGT_0. exists (/ (2 * PI)).
  assert (V : 0 < / (2 * PI)) by (apply Rinv_0_lt_compat; lra).
  set (v := / (2 * PI)) in *. exists (sqrt (2 * v * 200)), (sqrt (2 * v * (under + 1))).
  assert (P1 : 0 < 2 * v * 200) by (repeat apply Rmult_lt_0_compat; lra). assert (P2 : 0 < 2 * v * (under + 1)) by (apply Rmult_lt_0_compat; lra).
  assert (S1 : sqrt (2 * v * 200) ^ 2 / (2 * v) = 200) by (rewrite pow2_sqrt by lra; field; lra).
  assert (S2 : sqrt (2 * v * (under + 1)) ^ 2 / (2 * v) = under + 1) by (rewrite pow2_sqrt by lra; field; lra).
  split; [exact V|]. split.
  - rewrite !Rabs_pos_eq by apply sqrt_pos. apply sqrt_lt_1; [lra|lra|]. apply Rmult_lt_compat_l; lra.
  - rewrite val_gauss by lra. unfold val. destruct (Rle_dec v 0); [lra|]. rewrite S2. destruct (Rlt_dec under (under + 1)); [|lra].
    unfold log_gauss. rewrite S1. replace (2 * PI * v) with 1 by (unfold v; field; lra). rewrite ln_1. lra.
Qed.
Print Assumptions C134_closer_refuted.
