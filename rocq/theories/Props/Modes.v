(** C53, C55 and C59: RunCatalog, masks and RunZScan. *)
From Coq Require Import QArith Qabs Qround.
From Verif.Base Require Import Py PyLemmas.
From Verif.Model Require Import Modes.
From Verif.Spec Require Import Modes.
From Verif.Proofs Require Import Modes.
From Coq Require Import Lqa Lia List.
Import ListNotations.
Local Open Scope nat_scope.
Local Open Scope list_scope.

(** *** C53: RunCatalog *)
(** A cluster reported good has an acceptable mask fraction, a richness of at least 3 and a non-negative
    redshift, both from the last pass; if convergence was asked for, the last pass moved the redshift by
    less than the tolerance. *)
Theorem C53_good_partial o p maskfrac fuel s s' n :
  (0 < maxiter p)%Z -> process o p maskfrac fuel s = Some (s', false, n) ->
  (maskfrac <= 7 # 10)%Q /\ (3 <= s_lambda s')%Q /\ (0 <= s_zl s')%Q /\
  exists z, s_lambda s' = rich o (n - 1) z /\ (s_zl s', s_zle s') = zlam o (n - 1) z /\
    (converge p = true -> s_z s' = s_zl s' /\ (Qabs (z - s_zl s') < tol p)%Q) /\
    (converge p = false -> z = s_z s /\ s_z s' = s_z s).
Proof.
  intros Hm H. destruct (loop_good o p maskfrac Hm _ _ _ _ _ H) as (k & s0 & -> & _ & Hp & Hc).
  destruct (pass_good _ _ _ _ _ _ _ Hp) as (M & [U1 U2] & E1 & E2 & F1 & F2).
  replace (S k - 1) with k by lia. rewrite E1. split; [exact M|]. split; [exact U1|].
  split; [assert (E3 : s_zl s' = fst (zlam o k (s_z s0))) by (rewrite <- E2; reflexivity); rewrite E3; exact U2|].
  exists (s_z s0). split; [reflexivity|]. split; [exact E2|]. split.
  - intros C. destruct (F1 C) as [G1 G2]. split; [exact G1|]. apply G2. reflexivity.
  - intros C. rewrite (Hc C) in *. destruct (F2 C) as [G _]. auto.
Qed.
Print Assumptions C53_good_partial.
(** Without convergence there is exactly one pass, and the cluster is good exactly when everything is usable. *)
Theorem C53_one_pass p o maskfrac fuel s :
  (0 < maxiter p)%Z -> converge p = false ->
  exists s' bad, process o p maskfrac (S fuel) s = Some (s', bad, 1) /\
    (bad = false <-> (maskfrac <= 7 # 10)%Q /\ usable o 0 (s_z s)).
Proof.
  intros Hm Hc. unfold process. cbn [loop]. rewrite (proj2 (Z.ltb_lt _ _) Hm).
  destruct (pass o p maskfrac 0 s) as [[s' b] d] eqn:E. destruct b.
  - rewrite (pass_bad_done _ _ _ _ _ _ _ E). exists s', true. split; [reflexivity|]. split; [discriminate|]. intros [H1 H2].
    exfalso. destruct (pass_bad _ _ _ _ _ _ _ E) as [H|H]; [Lqa.lra|exact (H H2)].
  - destruct (pass_good _ _ _ _ _ _ _ E) as (M & U & _ & _ & _ & F). destruct (F Hc) as [_ ->]. exists s', false. split; [reflexivity|]. tauto.
Qed.
Print Assumptions C53_one_pass.
(** The outcome of the cluster loop: a cluster that is not good has its richness and redshift reset to -1. *)
Theorem C53_reset o p limmag g fuel s s' bad :
  (0 < maxiter p)%Z -> run_one o p limmag g fuel s = Ok (Some (s', bad)) ->
  if bad then s_lambda s' = (-1)%Q /\ s_zl s' = (-1)%Q /\ s_zle s' = (-1)%Q
  else (3 <= s_lambda s')%Q /\ (0 <= s_zl s')%Q /\ (1 < limmag)%Q /\
       exists mf, maskfrac_first g = Ok mf /\ (mf <= 7 # 10)%Q.
Proof.
  intros Hm. unfold run_one. destruct (maskfrac_first g) as [mf|] eqn:Eg; [|discriminate]. cbn [bind].
  destruct (Qeq_bool mf 1 || Qle_bool limmag 1) eqn:Eb.
  - intros [= <- <-]. cbn. auto.
  - apply Bool.orb_false_iff in Eb. destruct Eb as [_ Eb].
    assert (L : (1 < limmag)%Q) by (apply Qnot_le_lt; intros H; apply Qle_bool_iff in H; congruence).
    destruct (process o p mf fuel s) as [[[s1 b] n]|] eqn:Ep; [|discriminate]. destruct b; intros [= <- <-]; [cbn; auto|].
    destruct (C53_good_partial o p mf fuel s s1 n Hm Ep) as (H1 & H2 & H3 & _). repeat split; auto. exists mf. auto.
Qed.
Print Assumptions C53_reset.
Definition conv_oracle := mk_oracle (fun _ _ => 10%Q) (fun n z => ((z + (1#5)) / 2, (1#100))%Q).
Example C53_ex : exists s', process conv_oracle (mk_options 5 (1#200) true) (1#10) 20 (mk_cstate (3#10) 0 0 0) = Some (s', false, 5).
Proof. vm_compute. eexists. reflexivity. Qed.

(** The limit on the number of iterations has no effect: any two positive limits give the same result. *)
Theorem C53_maxiter_refuted o tol_ conv m1 m2 maskfrac fuel s :
  (0 < m1)%Z -> (0 < m2)%Z ->
  process o (mk_options m1 tol_ conv) maskfrac fuel s = process o (mk_options m2 tol_ conv) maskfrac fuel s.
Proof. intros H1 H2. apply loop_maxiter; auto. Qed.
Print Assumptions C53_maxiter_refuted.
Example C53_maxiter_ex : exists s', process conv_oracle (mk_options 2 (1#200) true) (1#10) 20 (mk_cstate (3#10) 0 0 0) = Some (s', false, 5).
Proof. vm_compute. eexists. reflexivity. Qed.
(** A cluster whose redshift keeps moving by more than the tolerance is never finished. *)
Theorem C53_endless_refuted o p maskfrac s :
  (0 < maxiter p)%Z -> converge p = true -> (maskfrac <= 7 # 10)%Q -> (0 <= s_z s)%Q ->
  (forall n z, (0 <= z)%Q -> usable o n z) -> (forall n z, (0 <= z)%Q -> (tol p <= Qabs (z - fst (zlam o n z)))%Q) ->
  forall fuel, process o p maskfrac fuel s = None.
Proof. intros H1 H2 H3 H4 H5 H6 fuel. exact (loop_endless o p maskfrac H1 H2 H3 H5 H6 fuel 0 s H4). Qed.
Print Assumptions C53_endless_refuted.
Definition osc_oracle := mk_oracle (fun _ _ => 10%Q) (fun n z => (if Qle_bool z (1#4) then 3#10 else 1#5, 1#100)%Q).
Example C53_endless_ex :
  (forall n z, (0 <= z)%Q -> usable osc_oracle n z) /\ (forall n z, (0 <= z)%Q -> ((1#200) <= Qabs (z - fst (zlam osc_oracle n z)))%Q).
Proof.
  split; intros n z Hz.
  - unfold usable. cbn. destruct (Qle_bool z (1 # 4)); cbn; split; Lqa.lra.
  - cbn. destruct (Qle_bool z (1 # 4)) eqn:E; cbn.
    + apply Qle_bool_iff in E. rewrite Qabs_neg by Lqa.lra. Lqa.lra.
    + assert ((1 # 4) < z)%Q by (apply Qnot_le_lt; intros H; apply Qle_bool_iff in H; congruence). rewrite Qabs_pos by Lqa.lra. Lqa.lra.
Qed.
(** With a limit of zero the cluster is reported good although nothing has been computed. *)
Theorem C53_zero_refuted o p maskfrac fuel s : (maxiter p <= 0)%Z -> process o p maskfrac fuel s = Some (s, false, 0).
Proof. intros H. unfold process. destruct fuel; cbn [loop]; rewrite (proj2 (Z.ltb_ge _ _) H); reflexivity. Qed.
Print Assumptions C53_zero_refuted.
(** The mask fraction recorded for a good cluster, which is computed again within its radius, is not
    limited. *)
Theorem C53_final_mask_refuted : exists g rlam mf,
  maskfrac_first g = Ok mf /\ (mf <= 7 # 10)%Q /\ (0 < rlam)%Q /\ (maskfrac_final rlam g == 1)%Q.
Proof.
  exists [(1#10, false); (5#10, true); (6#10, true)]%Q, (4#10)%Q, (1#3)%Q. vm_compute. repeat split; discriminate.
Qed.
Print Assumptions C53_final_mask_refuted.

(** *** C55: masks *)
(** A point that is accepted lies off the poles, where the map has a positive value. *)
Theorem C55_accepted frac unseen u ra dec out k r d :
  unit_draws u -> (unseen <= 0)%Q -> hp_mask frac unseen u ra dec = Ok out ->
  nth_error ra k = Some r -> nth_error dec k = Some d -> nth_error out k = Some true ->
  (Qabs d < 90)%Q /\ exists f, frac r d = Some f /\ (0 < f)%Q /\ (u k < f)%Q.
Proof.
  intros Hu Hs H Hr Hd Hk. rewrite (hp_mask_nth _ _ _ _ _ _ _ _ _ H Hr Hd) in Hk. injection Hk as Hk. apply Qlt_bool_iff in Hk.
  destruct (Hu k) as [U1 U2]. destruct (Qlt_bool (Qabs d) 90) eqn:E; [|Lqa.lra]. apply Qlt_bool_iff in E. split; [exact E|].
  destruct (frac r d) as [f|]; [|Lqa.lra]. exists f. repeat split; Lqa.lra.
Qed.
Print Assumptions C55_accepted.
(** A point off the poles where the fraction is one (or more) is always accepted. *)
Theorem C55_full_partial frac unseen u ra dec out k r d f :
  unit_draws u -> hp_mask frac unseen u ra dec = Ok out ->
  nth_error ra k = Some r -> nth_error dec k = Some d -> (Qabs d < 90)%Q -> frac r d = Some f -> (1 <= f)%Q ->
  nth_error out k = Some true.
Proof.
  intros Hu H Hr Hd Ha Hf H1. rewrite (hp_mask_nth _ _ _ _ _ _ _ _ _ H Hr Hd). f_equal. rewrite (proj2 (Qlt_bool_iff _ _) Ha), Hf.
  apply Qlt_bool_iff. destruct (Hu k). Lqa.lra.
Qed.
Print Assumptions C55_full_partial.
(** At a pole nothing is accepted, whatever the map says. *)
Theorem C55_full_refuted frac unseen u ra dec out k r d :
  unit_draws u -> hp_mask frac unseen u ra dec = Ok out ->
  nth_error ra k = Some r -> nth_error dec k = Some d -> (Qabs d == 90)%Q -> nth_error out k = Some false.
Proof.
  intros Hu H Hr Hd Ha. rewrite (hp_mask_nth _ _ _ _ _ _ _ _ _ H Hr Hd). f_equal.
  destruct (Qlt_bool (Qabs d) 90) eqn:E; [apply Qlt_bool_iff in E; Lqa.lra|]. apply Qlt_bool_false. apply Hu.
Qed.
Print Assumptions C55_full_refuted.
(** Every point has an answer; lists of different lengths are refused; without a mask all is accepted. *)
Theorem C55_lengths frac unseen u ra dec :
  (length ra = length dec -> exists out, hp_mask frac unseen u ra dec = Ok out /\ length out = length ra) /\
  (length ra <> length dec -> hp_mask frac unseen u ra dec = Err ValueError /\ no_mask ra dec = Err ValueError) /\
  (length ra = length dec -> no_mask ra dec = Ok (repeat true (length ra))).
Proof.
  split; [|split].
  - intros L. unfold hp_mask. rewrite (proj2 (Nat.eqb_eq _ _) L). cbn [negb]. eexists. split; [reflexivity|].
    rewrite map_length, !combine_length, seq_length. lia.
  - intros L. unfold hp_mask, no_mask. rewrite (proj2 (Nat.eqb_neq _ _) L). auto.
  - intros L. unfold no_mask. rewrite (proj2 (Nat.eqb_eq _ _) L). f_equal. clear. induction ra; cbn; congruence.
Qed.
Print Assumptions C55_lengths.
Example C55_ex : hp_mask (fun r d => if Qlt_bool r 10 then Some 1%Q else None) (-16) (fun _ => 1#2)%Q [5; 20; 5]%Q [0; 0; -90]%Q = Ok [true; false; false].
Proof. reflexivity. Qed.
(** Mask fractions lie between 0 and 1; they are 1 exactly when every mask galaxy inside is masked and 0
    exactly when none is. *)
Theorem C55_fraction g mf :
  maskfrac_first g = Ok mf ->
  (0 <= mf <= 1)%Q /\ ((mf == 1)%Q <-> forall r ok, In (r, ok) g -> (r < 1)%Q -> ok = false) /\
  ((mf == 0)%Q <-> forall r ok, In (r, ok) g -> (r < 1)%Q -> ok = true).
Proof.
  unfold maskfrac_first. destruct (Nat.eqb_spec (length (inside 1 g)) 0) as [|N]; [discriminate|]. intros [= <-].
  assert (L : length (masked (inside 1 g)) <= length (inside 1 g)) by apply filter_len.
  rewrite ratio_one, ratio_zero by assumption. rewrite masked_all, masked_none. split; [apply ratio_bounds; assumption|tauto].
Qed.
Print Assumptions C55_fraction.
Theorem C55_final_fraction rlam g :
  (0 <= maskfrac_final rlam g <= 1)%Q /\
  ((maskfrac_final rlam g == 1)%Q <-> forall r ok, In (r, ok) g -> (r < rlam)%Q -> ok = false).
Proof.
  unfold maskfrac_final. destruct (Nat.eqb_spec (length (inside rlam g)) 0) as [E|N].
  - split; [Lqa.lra|]. split; [|reflexivity]. intros _ r ok Hi Hr. exfalso. exact (proj1 (inside_nil rlam g) E r ok Hi Hr).
  - assert (L : length (masked (inside rlam g)) <= length (inside rlam g)) by apply filter_len.
    rewrite ratio_one by assumption. rewrite masked_all. split; [apply ratio_bounds; assumption|tauto].
Qed.
Print Assumptions C55_final_fraction.
(** The first fraction does not exist when no mask galaxy is within the unit radius. *)
Theorem C55_fraction_undefined g :
  maskfrac_first g = Err ZeroDivisionError <-> forall r ok, In (r, ok) g -> ~ (r < 1)%Q.
Proof.
  rewrite <- inside_nil. unfold maskfrac_first. destruct (Nat.eqb_spec (length (inside 1 g)) 0) as [E|N]; split; auto; try discriminate. contradiction.
Qed.
Print Assumptions C55_fraction_undefined.

(** *** C59: RunZScan *)
(** The grid starts at the lower end, has the given step, stays below the upper end and leaves no full
    step of it uncovered. *)
Theorem C59_grid z0 z1 step :
  (0 < step)%Q -> (z0 < z1)%Q ->
  (forall k z, nth_error (z_array z0 z1 step) k = Some z -> (z == z0 + inject_Z (Z.of_nat k) * step)%Q /\ (z < z1)%Q) /\
  (exists z, nth_error (z_array z0 z1 step) (length (z_array z0 z1 step) - 1) = Some z /\ (z1 <= z + step)%Q).
Proof. exact (zgrid_spec z0 z1 step). Qed.
Print Assumptions C59_grid.
(** A redshift counts as usable exactly when it has two galaxies and enough richness. *)
Theorem C59_usable ml ngal lam like :
  scan_step ml ngal lam like <> None <-> 2 <= ngal /\ (ml <= lam)%Q.
Proof.
  unfold scan_step. destruct (Nat.ltb_spec ngal 2) as [L|L]; [split; [congruence|lia]|].
  destruct (Qlt_bool lam ml) eqn:E; [apply Qlt_bool_iff in E; split; [congruence|intros [_ H]; Lqa.lra]|].
  apply Qlt_bool_false in E. split; [auto|discriminate].
Qed.
Print Assumptions C59_usable.
(** If every usable redshift has a likelihood above -1, the scan keeps the usable redshift of largest
    likelihood, the first one if there are several, and reports the cluster bad exactly when there is none. *)
Theorem C59_best_partial ml zs steps :
  (-1 < ml)%Q -> steps <> [] -> length zs = length steps ->
  (forall l lk, In (Some (l, lk)) steps -> (ml <= l)%Q /\ (-1 < lk)%Q) ->
  exists o, scan ml zs steps = Ok o /\ (scan_bad o = true <-> ~ some_usable steps) /\
    (some_usable steps -> exists l z, nth_error steps (max_ind o) = Some (Some (l, lmax o)) /\
       nth_error zs (max_ind o) = Some z /\ zmax o = z /\ best_like steps (lmax o) /\
       forall j l' lk', nth_error steps j = Some (Some (l', lk')) -> (lk' == lmax o)%Q -> max_ind o <= j).
Proof.
  intros Hml Hne Hlen Hg. destruct (scan_ok ml zs steps Hne) as (o & E & (st & Hst & Hl & Hz & Hb) & H1 & H2).
  exists o. split; [exact E|].
  assert (D : (exists l, st = Some (l, lmax o)) \/ (st = None /\ ~ some_usable steps)).
  { destruct st as [[l lk]|]; [left; exists l; rewrite Hl; reflexivity|]. right. split; [reflexivity|]. intros (l & lk & Hi).
    destruct (Hg l lk Hi) as [_ G]. apply In_nth_error in Hi. destruct Hi as [j Hj]. specialize (H1 j _ Hj). cbn in H1. rewrite Hl in H1. Lqa.lra. }
  split.
  - rewrite Hb. destruct D as [[l ->]|[-> N]].
    + split; [|intros N; exfalso; apply N; exists l, (lmax o); eapply nth_error_In; exact Hst].
      intros F. apply Qlt_bool_iff in F. destruct (Hg l (lmax o) (nth_error_In _ _ Hst)) as [G _]. Lqa.lra.
    + split; [intros _; exact N|]. intros _. apply Qlt_bool_iff. exact Hml.
  - intros U. destruct D as [[l ->]|[_ N]]; [|contradiction]. 
    assert (Li : max_ind o < length zs) by (rewrite Hlen; apply nth_error_Some; unfold step_result in *; congruence).
    exists l, (nth (max_ind o) zs 0%Q). split; [exact Hst|]. split; [apply nth_error_nth', Li|]. split; [exact Hz|]. split.
    + intros l' lk' Hi. apply In_nth_error in Hi. destruct Hi as [j Hj]. exact (H1 j _ Hj).
    + intros j l' lk' Hj Eq. destruct (Nat.le_gt_cases (max_ind o) j) as [|L]; [assumption|]. specialize (H2 j _ L Hj). cbn in H2. Lqa.lra.
Qed.
Print Assumptions C59_best_partial.
Example C59_ex : scan 3 [1#10; 2#10; 3#10; 4#10]%Q [None; Some (5, 2)%Q; Some (8, 7)%Q; Some (4, 1)%Q] = Ok (mk_scan 2 7 (3#10) false).
Proof. reflexivity. Qed.
(** A likelihood of -1 or less cannot be told from no cluster: when the first redshift of the grid is not
    usable and no usable one has a likelihood above -1, the cluster is reported bad. *)
Theorem C59_flag_refuted ml zs steps :
  (-1 < ml)%Q -> (forall l lk, In (Some (l, lk)) steps -> (lk <= -1)%Q) ->
  exists o, scan ml zs (None :: steps) = Ok o /\ scan_bad o = true /\ max_ind o = 0.
Proof.
  intros Hml Hg. destruct (scan_ok ml zs (None :: steps)) as (o & E & (st & Hst & Hl & Hz & Hb) & H1 & H2); [discriminate|].
  exists o. split; [exact E|].
  assert (Z : max_ind o = 0).
  { destruct (max_ind o) as [|i] eqn:Ei; [reflexivity|]. exfalso. pose proof (H2 0 None ltac:(lia) eq_refl) as L. cbn in L.
    destruct st as [[l lk]|]; cbn in Hl; [|rewrite Hl in L; Lqa.lra]. cbn in Hst. apply nth_error_In in Hst. specialize (Hg l lk Hst). rewrite Hl in L. Lqa.lra. }
  split; [|exact Z]. rewrite Z in Hst. cbn in Hst. injection Hst as <-. rewrite Hb. apply Qlt_bool_iff. exact Hml.
Qed.
Print Assumptions C59_flag_refuted.
Example C59_flag_ex : scan_step 3 4 20 None = Some (20, -1)%Q /\ scan 3 [1#10; 2#10]%Q [None; scan_step 3 4 20 None] = Ok (mk_scan 0 (-1) (1#10) true).
Proof. split; reflexivity. Qed.
(** The refinement: the redshift kept in the end is the refined one, and a cluster with a usable redshift in
    the scan is still reported bad when the refined richness or redshift is not usable. *)
Theorem C59_refined ml r1 zl r2 z0 :
  (fst (refine ml r1 zl r2 z0) = false <-> (ml <= r1)%Q /\ (0 <= zl)%Q /\ (ml <= r2 (if Qlt_bool 0 zl then zl else z0))%Q) /\
  (fst (refine ml r1 zl r2 z0) = false -> snd (refine ml r1 zl r2 z0) = zl).
Proof.
  unfold refine. destruct (Qlt_bool r1 ml) eqn:E1.
  { apply Qlt_bool_iff in E1. cbn. split; [split; [discriminate|intros [H _]; Lqa.lra]|discriminate]. }
  apply Qlt_bool_false in E1. destruct (Qlt_bool zl 0) eqn:E2.
  { apply Qlt_bool_iff in E2. cbn. split; [split; [discriminate|intros (_ & H & _); Lqa.lra]|discriminate]. }
  apply Qlt_bool_false in E2. cbn zeta. destruct (Qlt_bool (r2 _) ml) eqn:E3.
  { apply Qlt_bool_iff in E3. cbn. split; [split; [discriminate|intros (_ & _ & H); Lqa.lra]|discriminate]. }
  apply Qlt_bool_false in E3. cbn [fst snd]. split; [split; [intros _; repeat split; assumption|reflexivity]|reflexivity].
Qed.
Print Assumptions C59_refined.
