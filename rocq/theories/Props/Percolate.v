(** C75 and C76: the percolation run. *)
From Coq Require Import QArith Lqa Permutation.
From Verif.Base Require Import Py PyLemmas Sort.
From Verif.Model Require Import Runner Percolate.
From Verif.Spec Require Import Percolate.
From Verif.Proofs Require Import Runner Percolate.
From Coq Require Import Lqa Lia List ZArith.
Import ListNotations.
Local Open Scope nat_scope.
Local Open Scope list_scope.

(** *** C75: which clusters, in which order *)
(** The run works on exactly the usable clusters, each once. *)
Theorem C75_rows asort c cat ok out : argsort_spec asort -> (forall s, ok s = true <-> usable c s) ->
  setup asort c cat = Ok (Some out) -> Permutation (map anonymous out) (map anonymous (filter ok cat)) /\ out <> [].
Proof.
  intros HA Hok H. destruct (setup_cases asort HA c cat) as (rows & P & _ & _ & E). rewrite E in H.
  assert (F : filter ok cat = filter (sel c) cat).
  { apply filter_ext. intros s. destruct (ok s) eqn:E1, (sel c s) eqn:E2; auto; [apply Hok in E1; apply sel_iff in E1; congruence|apply sel_iff in E2; apply Hok in E2; congruence]. }
  rewrite F. destruct (length rows =? 0) eqn:El; [discriminate|]. apply Nat.eqb_neq in El.
  destruct (generate_ids _) as [ids|] eqn:G; [|discriminate]. cbn [bind] in H. injection H as <-.
  pose proof (proj2 (generate_ok _ _ G)) as L. rewrite map_length in L.
  destruct (combine_ids (map (relabel c) rows) ids L) as [_ E2]. rewrite E2. split.
  - rewrite map_map. rewrite <- (Permutation_map anonymous P). rewrite (map_ext (fun s => anonymous (relabel c s)) anonymous); [reflexivity|].
    intros s. unfold relabel. destruct (p_keepid c); reflexivity.
  - intros K. apply (f_equal (@length _)) in K. rewrite map_length, combine_length, L, map_length in K. cbn in K. lia.
Qed.
Print Assumptions C75_rows.

(** It is skipped exactly when no cluster is usable. *)
Theorem C75_skipped asort c cat : argsort_spec asort ->
  (setup asort c cat = Ok None <-> forall s, In s cat -> ~ usable c s).
Proof.
  intros HA. destruct (setup_cases asort HA c cat) as (rows & P & _ & _ & E). rewrite E.
  destruct (length rows =? 0) eqn:El.
  - apply Nat.eqb_eq in El. assert (R : rows = []) by (destruct rows; [reflexivity|discriminate]). subst rows. apply Permutation_nil in P.
    split; [|reflexivity]. intros _ s Hs U. apply sel_iff in U. assert (In s (filter (sel c) cat)) by (apply filter_In; auto). rewrite P in H. destruct H.
  - split; [destruct (generate_ids _); discriminate|]. intros H. exfalso. apply Nat.eqb_neq in El. destruct rows as [|r rows]; [cbn in El; lia|].
    assert (In r (filter (sel c) cat)) by (apply (Permutation_in r P); left; reflexivity). apply filter_In in H0. destruct H0 as [H0 H1]. apply sel_iff in H1. exact (H r H0 H1).
Qed.
Print Assumptions C75_skipped.

(** Without kept identifiers: always succeeds, decreasing likelihood, identifiers 1, 2, 3, ... *)
Theorem C75_order asort c cat out : argsort_spec asort -> p_keepid c = false ->
  setup asort c cat = Ok (Some out) ->
  (forall i j a b, i < j -> nth_error out i = Some a -> nth_error out j = Some b ->
     exists u v, s_like a = Some u /\ s_like b = Some v /\ (v <= u)%Q) /\
  (forall i a, nth_error out i = Some a -> s_id a = Z.of_nat (S i)).
Proof.
  intros HA K H. destruct (setup_cases asort HA c cat) as (rows & P & _ & O & E). rewrite E in H. specialize (O K).
  destruct (length rows =? 0) eqn:El; [discriminate|]. apply Nat.eqb_neq in El.
  assert (EI : map s_id (map (relabel c) rows) = repeat 0%Z (length rows)).
  { unfold relabel. rewrite K. clear. induction rows as [|x r IH]; cbn; [reflexivity|]. rewrite IH. reflexivity. }
  rewrite EI in H. destruct (length rows) as [|n] eqn:L; [lia|]. rewrite generate_same in H. cbn [bind] in H.
  apply (f_equal (fun r => match r with Ok (Some x) => x | _ => [] end)) in H. cbv beta iota in H. subst out.
  set (ids := map (fun k => Z.of_nat (S k)) (seq 0 (S n))).
  assert (Li : length ids = length (map (relabel c) rows)) by (unfold ids; rewrite !map_length, seq_length, L; reflexivity).
  set (out := map (fun p => with_id (fst p) (snd p)) (combine (map (relabel c) rows) ids)).
  destruct (combine_ids (map (relabel c) rows) ids Li) as [E1 E2]. fold out in E1, E2. split.
  - intros i j a b Hij Ha Hb.
    assert (G : forall i a, nth_error out i = Some a -> exists r, nth_error rows i = Some r /\ s_like a = s_like r /\ usable c r).
    { clear i j a b Hij Ha Hb. intros i a Ha. assert (X : nth_error (map anonymous out) i = Some (anonymous a)) by (rewrite nth_error_map, Ha; reflexivity).
      rewrite E2, map_map, nth_error_map in X. destruct (nth_error rows i) as [r|] eqn:Er; [|discriminate]. exists r. split; [reflexivity|]. cbn [option_map] in X. apply (f_equal (fun o => match o with Some t => s_like t | None => None end)) in X.
      split. - unfold relabel in X. rewrite K in X. cbn in X. auto.
      - apply sel_iff. assert (In r (filter (sel c) cat)) by (apply (Permutation_in r P); eapply nth_error_In; exact Er). apply filter_In in H. apply H. }
    destruct (G i a Ha) as (ra & R1 & R2 & (_ & (u & U) & _)). destruct (G j b Hb) as (rb & S1 & S2 & (_ & (v & V) & _)).
    exists u, v. rewrite R2, S2. split; [exact U|]. split; [exact V|]. pose proof (O i j ra rb Hij R1 S1) as Q. cbv beta in Q. unfold like_key in Q. rewrite U, V in Q. exact Q.
  - intros i a Ha. assert (X : nth_error (map s_id out) i = Some (s_id a)) by (rewrite nth_error_map, Ha; reflexivity).
    rewrite E1 in X. unfold ids in X. rewrite nth_error_map in X. destruct (nth_error (seq 0 (S n)) i) as [k|] eqn:Ek; [|discriminate]. cbn in X.
    assert (k = i). { pose proof (nth_error_Some (seq 0 (S n)) i) as Q. rewrite Ek in Q. assert (i < S n) by (rewrite seq_length in Q; apply Q; discriminate).
      rewrite (nth_error_nth' _ 0) in Ek by (rewrite seq_length; exact H). rewrite seq_nth in Ek by exact H. cbn in Ek. congruence. }
    subst k. injection X as X. lia.
Qed.
Print Assumptions C75_order.
Theorem C75_runs asort c cat : argsort_spec asort -> p_keepid c = false -> exists r, setup asort c cat = Ok r.
Proof.
  intros HA K. destruct (setup_cases asort HA c cat) as (rows & P & _ & O & E). rewrite E.
  destruct (length rows =? 0) eqn:El; [eauto|]. apply Nat.eqb_neq in El.
  assert (EI : map s_id (map (relabel c) rows) = repeat 0%Z (length rows)).
  { unfold relabel. rewrite K. clear. induction rows as [|x r IH]; cbn; [reflexivity|]. rewrite IH. reflexivity. }
  rewrite EI. destruct (length rows) as [|n]; [lia|]. rewrite generate_same. cbn [bind]. eauto.
Qed.
Print Assumptions C75_runs.

(** With kept identifiers that are distinct, and at least two usable clusters: the very rows of the input, by identifier. *)
Theorem C75_keepid_partial asort c cat ok : argsort_spec asort -> p_keepid c = true ->
  (forall s, ok s = true <-> usable c s) -> NoDup (map s_id (filter ok cat)) -> 2 <= length (filter ok cat) ->
  exists out, setup asort c cat = Ok (Some out) /\ Permutation out (filter ok cat) /\
    forall i j a b, i < j -> nth_error out i = Some a -> nth_error out j = Some b -> (s_id a < s_id b)%Z.
Proof.
  intros HA K Hok ND L2. destruct (setup_cases asort HA c cat) as (rows & P & O & _ & E). rewrite E. specialize (O K).
  assert (F : filter ok cat = filter (sel c) cat).
  { apply filter_ext. intros s. destruct (ok s) eqn:E1, (sel c s) eqn:E2; auto; [apply Hok in E1; apply sel_iff in E1; congruence|apply sel_iff in E2; apply Hok in E2; congruence]. }
  rewrite F in *. pose proof (Permutation_length P) as PL.
  destruct (length rows =? 0) eqn:El; [apply Nat.eqb_eq in El; lia|].
  assert (ER : map (relabel c) rows = rows) by (unfold relabel; rewrite K; apply map_id).
  assert (NDr : NoDup (map s_id rows)) by (apply (Permutation_NoDup (Permutation_sym (Permutation_map s_id P))); exact ND).
  rewrite ER, (generate_kept (map s_id rows)); [|exact NDr|rewrite map_length; lia]. cbn [bind]. rewrite combine_own.
  exists rows. split; [reflexivity|]. split; [exact P|]. intros i j a b Hij Ha Hb. pose proof (O i j a b Hij Ha Hb) as Q. cbv beta in Q.
  destruct (Z.eq_dec (s_id a) (s_id b)) as [D|D]; [|lia]. exfalso.
  assert (X : i = j). { apply (proj1 (NoDup_nth_error (map s_id rows)) NDr); [rewrite map_length; apply nth_error_Some; congruence|]. rewrite !nth_error_map, Ha, Hb. cbn. rewrite D. reflexivity. }
  lia.
Qed.
Print Assumptions C75_keepid_partial.

(** When a single cluster is usable its kept identifier is replaced by 1. *)
Theorem C75_keepid_refuted asort c s cat : argsort_spec asort -> p_keepid c = true -> usable c s ->
  (forall t, In t cat -> ~ usable c t) -> setup asort c (s :: cat) = Ok (Some [with_id s 1]).
Proof.
  intros HA K U N. destruct (setup_cases asort HA c (s :: cat)) as (rows & P & _ & _ & E). rewrite E.
  assert (F : filter (sel c) (s :: cat) = [s]).
  { cbn. rewrite (proj2 (sel_iff c s) U). f_equal. clear - N. induction cat as [|t l IH]; [reflexivity|]. cbn. destruct (sel c t) eqn:Et.
    - apply sel_iff in Et. exfalso. exact (N t (or_introl eq_refl) Et). - apply IH. intros x Hx. apply N. right. exact Hx. }
  rewrite F in P. apply Permutation_sym, Permutation_length_1_inv in P. subst rows. cbn [length Nat.eqb map].
  change [s_id (relabel c s)] with (repeat (s_id (relabel c s)) 1). rewrite (generate_same (s_id (relabel c s)) 0). cbn.
  unfold relabel. rewrite K. reflexivity.
Qed.
Print Assumptions C75_keepid_refuted.

(** The likelihood used is the sum of the two parts once the centering is calibrated; before that the total is
    never written: the column keeps whatever value it had, and the order does not depend on the likelihoods. *)
Theorem C75_total_partial sigma bcg lam old : (0 < sigma)%Q ->
  k_lam (like_good sigma bcg lam old) = lam /\ k_like (like_good sigma bcg lam old) = oadd bcg lam.
Proof. intros H. unfold like_good. destruct (Qle_bool sigma 0) eqn:E; [apply Qle_bool_iff in E; Lqa.lra|]. auto. Qed.
Print Assumptions C75_total_partial.
(** Finding: before the centering is calibrated the total likelihood is not written at all. *)
Theorem C75_total_refuted sigma bcg lam lam' old : (sigma <= 0)%Q ->
  k_like (like_good sigma bcg lam old) = old /\ k_like (like_good sigma bcg lam' old) = old.
Proof. intros H. unfold like_good. apply Qle_bool_iff in H. rewrite H. auto. Qed.
Print Assumptions C75_total_refuted.
(** Hence a cluster can come first although the computed likelihood of another one is higher: two rows that differ
    only in the likelihood computed for them (3 and 5), both with 0 in the column. *)
Definition ex_row (r : like_row) : seed := mk_seed (3 # 10) (k_like r) 20 18 22 true 0.
Definition ex_cfg : perc := mk_perc (1 # 10) (6 # 10) (1 # 20) 3 false false false.
(** Finding: a run before that therefore puts a cluster of smaller likelihood first. *)
Theorem C75_uncalibrated_refuted : exists sigma lo hi, (sigma <= 0)%Q /\
  k_lam lo = Some 3%Q /\ k_lam hi = Some 5%Q /\ lo = like_good sigma (Some 0%Q) (Some 3%Q) (Some 0%Q) /\ hi = like_good sigma (Some 0%Q) (Some 5%Q) (Some 0%Q) /\
  setup argsort ex_cfg [ex_row hi; ex_row lo] = Ok (Some [with_id (ex_row lo) 1; with_id (ex_row hi) 2]) /\ s_like (ex_row lo) = s_like (ex_row hi).
Proof. exists (-9999)%Q. eexists. eexists. split; [unfold Qle; cbn; lia|]. repeat split; vm_compute; reflexivity. Qed.
Print Assumptions C75_uncalibrated_refuted.
(** An infinite likelihood (see C54_infinite) keeps a cluster out of the run, however rich it is. *)
Theorem C75_infinite_dropped asort c cat out s : argsort_spec asort -> setup asort c cat = Ok (Some out) -> In s out -> s_like s <> None.
Proof.
  intros HA H Hs. destruct (C75_rows asort c cat (sel c) out HA (sel_iff c) H) as [P _].
  assert (X : In (anonymous s) (map anonymous (filter (sel c) cat))) by (apply (Permutation_in _ P); apply in_map; exact Hs).
  apply in_map_iff in X. destruct X as (t & Et & Ht). apply filter_In in Ht. destruct Ht as [_ Ht]. apply sel_iff in Ht. destruct Ht as (_ & (v & V) & _).
  apply (f_equal s_like) in Et. cbn in Et. congruence.
Qed.
Print Assumptions C75_infinite_dropped.

Example C75_example :
  let s k id := mk_seed (3 # 10) (Some k) 20 18 22 true id in
  usable ex_cfg (s 3%Q 7%Z) /\
  setup argsort ex_cfg [s 1%Q 7%Z; s 9%Q 5%Z; mk_seed (3 # 10) None 20 18 22 true 2; s 4%Q 6%Z] = Ok (Some [s 9%Q 1%Z; s 4%Q 2%Z; s 1%Q 3%Z]) /\
  setup argsort (mk_perc (1 # 10) (6 # 10) (1 # 20) 3 false true false) [s 1%Q 7%Z; s 9%Q 5%Z; s 4%Q 6%Z] = Ok (Some [s 9%Q 5%Z; s 4%Q 6%Z; s 1%Q 7%Z]).
Proof.
  cbv zeta. split; [|split; vm_compute; reflexivity]. unfold usable, in_range. cbn. repeat split; try (unfold Qlt; cbn; lia); eauto; try discriminate.
Qed.

(** *** C76: one cluster *)
(** A cluster is reported good exactly when it passes every check. *)
Theorem C76_good o g s : 0 < g_maxiter g -> (snd (process o g s) = false <-> passes o g (t_z s)).
Proof.
  intros Hm. unfold process, passes, start_z, later_z, z_at.
  destruct (Qlt_bool (o_pfree o) (g_cut g)) eqn:E1; [apply Qlt_bool_iff in E1; split; [discriminate|intros (H & _); Lqa.lra]|apply Qlt_bool_false in E1].
  destruct (o_near o <? 2) eqn:E2; [apply Nat.ltb_lt in E2; split; [discriminate|intros (_ & H & _); lia]|apply Nat.ltb_ge in E2].
  destruct (Qlt_bool (o_ratio o) (g_minlambda g)) eqn:E3; cbn [orb]; [apply Qlt_bool_iff in E3; split; [discriminate|intros (_ & _ & H & _); Lqa.lra]|apply Qlt_bool_false in E3].
  destruct (o_incut o <? 3) eqn:E4; [apply Nat.ltb_lt in E4; split; [discriminate|intros (_ & _ & _ & H & _); lia]|apply Nat.ltb_ge in E4].
  set (z1 := if g_keepz g then t_z s else o_zl o (t_z s)).
  destruct (negb (g_keepz g) && Qlt_bool (o_zl o (t_z s)) 0) eqn:E5.
  { apply Bool.andb_true_iff in E5. destruct E5 as [K E5]. apply Qlt_bool_iff in E5. apply Bool.negb_true_iff in K. unfold z1. rewrite K.
    split; [discriminate|intros (_ & _ & _ & _ & H & _); Lqa.lra]. }
  destruct (o_center o) eqn:E6; cbn [negb]; [|split; [discriminate|intros (_ & _ & _ & _ & _ & H & _); discriminate]].
  set (s1 := if g_keepz g then s else mk_cstate (o_zl o (t_z s)) (t_lambda s) (t_zl s)).
  assert (Z1 : t_z s1 = z1) by (unfold s1, z1; destruct (g_keepz g); reflexivity).
  destruct (Qlt_bool z1 0) eqn:E7.
  - destruct (g_maxiter g) as [|n]; [lia|]. cbn [iterate]. rewrite Z1, E7. cbn [orb]. apply Qlt_bool_iff in E7.
    split; [discriminate|intros (_ & _ & _ & _ & H & _); Lqa.lra].
  - apply Qlt_bool_false in E7. destruct (g_maxiter g) as [|n]; [lia|].
    pose proof (iterate_all o g n s1 z1 Z1 E7) as I. cbv zeta in I. destruct (iterate o g (S n) 0 s1 false) as [s2 b]. destruct I as [I _].
    destruct b.
    + split; [discriminate|]. intros (_ & _ & _ & _ & _ & _ & H1 & H2 & H3). assert (true = false) by (apply I; auto). discriminate.
    + destruct (proj1 I eq_refl) as (I1 & I2 & I3). split; [intros _; repeat (split; auto)|]. intros _. destruct (o_conn o =? 0); reflexivity.
Qed.
Print Assumptions C76_good.

(** Its richness is that of the last iteration, its redshift measured at the new center, and for redshifts not kept
    the working redshift is the measured one. *)
Theorem C76_values_partial o g s s' : 0 < g_maxiter g -> o_conn o <> 0 -> process o g s = (s', false) ->
  t_lambda s' = fst (o_rich o (g_maxiter g - 1) (z_at o g (t_z s) (g_maxiter g - 1))) /\
  t_zl s' = o_zlam o (start_z o g (t_z s)) /\ (0 <= t_zl s')%Q /\
  (g_keepz g = true -> t_z s' = t_z s) /\ (g_keepz g = false -> (0 < t_zl s')%Q -> t_z s' = t_zl s').
Proof.
  intros Hm Hu H. assert (Pa : passes o g (t_z s)) by (apply (C76_good o g s Hm); rewrite H; reflexivity).
  destruct Pa as (P1 & P2 & P3 & P4 & P5 & P6 & P7 & P8 & P9). unfold process in H.
  rewrite (proj2 (Qlt_bool_false _ _) P1), (proj2 (Nat.ltb_ge _ _) P2), (proj2 (Qlt_bool_false _ _) P3), (proj2 (Nat.ltb_ge _ _) P4), P6 in H. cbn [orb negb] in H.
  destruct (negb (g_keepz g) && Qlt_bool (o_zl o (t_z s)) 0); [discriminate|].
  set (s1 := if g_keepz g then s else mk_cstate (o_zl o (t_z s)) (t_lambda s) (t_zl s)) in H.
  assert (Z1 : t_z s1 = start_z o g (t_z s)) by (unfold s1, start_z; destruct (g_keepz g); reflexivity).
  destruct (g_maxiter g) as [|n]; [lia|]. pose proof (iterate_all o g n s1 _ Z1 P5) as I. cbv zeta in I.
  destruct (iterate o g (S n) 0 s1 false) as [s2 b]. destruct I as [_ I]. destruct b; [discriminate|]. destruct (I eq_refl) as (I1 & I2 & I3).
  destruct (o_conn o =? 0) eqn:E; [apply Nat.eqb_eq in E; contradiction|]. injection H as <-. replace (S n - 1) with n by lia.
  split; [exact I3|]. split; [exact I2|]. split; [rewrite I2; exact P8|]. rewrite I1, I2. split.
  - intros K. rewrite K. cbn. unfold start_z. rewrite K. reflexivity.
  - intros K L. rewrite K. cbn [negb andb]. destruct (Qle_bool (o_zlam o (start_z o g (t_z s))) 0) eqn:E2; [apply Qle_bool_iff in E2; Lqa.lra|reflexivity].
Qed.
Print Assumptions C76_values_partial.

(** A bad cluster has no richness and no redshift. *)
Theorem C76_bad o g s s' : process o g s = (s', true) -> t_lambda s' = (-1)%Q /\ t_zl s' = (-1)%Q.
Proof.
  unfold process. destruct (Qlt_bool (o_pfree o) (g_cut g)); [intros [= <-]; cbn; auto|]. destruct (o_near o <? 2); [intros [= <-]; cbn; auto|].
  destruct (_ || _); [intros [= <-]; cbn; auto|]. destruct (_ && _); [intros [= <-]; cbn; auto|]. destruct (negb _); [intros [= <-]; cbn; auto|].
  destruct (iterate _ _ _ _ _ _) as [s2 b]. destruct b; [intros [= <-]; cbn; auto|]. destruct (o_conn o =? 0); discriminate.
Qed.
Print Assumptions C76_bad.

(** A cluster without members between its center and its edge is reset, but reported as good. *)
Theorem C76_unconnected_refuted o g s : 0 < g_maxiter g -> passes o g (t_z s) -> o_conn o = 0 ->
  exists s', process o g s = (s', false) /\ t_lambda s' = (-1)%Q /\ t_zl s' = (-1)%Q.
Proof.
  intros Hm P E. pose proof (proj2 (C76_good o g s Hm) P) as G. destruct (process o g s) as [s' b] eqn:Ep. cbn in G. subst b. exists s'. split; [reflexivity|].
  unfold process in Ep. destruct (Qlt_bool (o_pfree o) (g_cut g)); [discriminate|]. destruct (o_near o <? 2); [discriminate|].
  destruct (_ || _); [discriminate|]. destruct (_ && _); [discriminate|]. destruct (negb _); [discriminate|].
  destruct (iterate _ _ _ _ _ _) as [s2 b]. destruct b; [discriminate|]. rewrite E in Ep. injection Ep as <-. cbn. auto.
Qed.
Print Assumptions C76_unconnected_refuted.
(** With no iterations configured the reported redshift is the one of the input, never measured. *)
Theorem C76_no_iterations_refuted o g s s' : g_maxiter g = 0 -> o_conn o <> 0 -> process o g s = (s', false) -> t_zl s' = t_zl s /\ t_lambda s' = t_lambda s.
Proof.
  intros E Hu. unfold process. rewrite E. destruct (Qlt_bool (o_pfree o) (g_cut g)); [discriminate|]. destruct (o_near o <? 2); [discriminate|].
  destruct (_ || _); [discriminate|]. destruct (_ && _); [discriminate|]. destruct (negb _); [discriminate|]. cbn [iterate].
  destruct (o_conn o =? 0) eqn:E2; [apply Nat.eqb_eq in E2; contradiction|]. intros [= <-]. destruct (g_keepz g); auto.
Qed.
Print Assumptions C76_no_iterations_refuted.

Definition ex_o (u : nat) : outcome := mk_outcome 1 5 10 4 (fun z => z + (1 # 100))%Q true 1 (fun _ _ => 5) (fun i z => (20 + inject_Z (Z.of_nat i), 19))%Q (fun z => z + (1 # 100))%Q u.
Definition ex_g : pcfg := mk_pcfg (1 # 2) 3 false 2.
Example C76_example : passes (ex_o 3) ex_g (3 # 10) /\
  (let '(s', b) := process (ex_o 3) ex_g (mk_cstate (3 # 10) 5 0) in (t_lambda s' == 21 /\ t_zl s' == 32 # 100 /\ t_z s' == 32 # 100)%Q /\ b = false).
Proof.
  split; [|vm_compute; repeat split].
  unfold passes, start_z. cbn. repeat split; try (vm_compute; discriminate); lia.
Qed.
Example C76_example_unconnected : passes (ex_o 0) ex_g (3 # 10) /\ snd (process (ex_o 0) ex_g (mk_cstate (3 # 10) 5 0)) = false.
Proof. split; [|reflexivity]. unfold passes, start_z. cbn. repeat split; try (vm_compute; discriminate); lia. Qed.
