(** C21, C22, C24, C65: the cluster redshift. *)
From Coq Require Import QArith Qabs Lqa.
From Verif.Base Require Import Py PyLemmas Sort.
From Verif.Model Require Import Zlambda.
From Verif.Spec Require Import Zlambda.
From Verif.Proofs Require Import Zlambda.
Local Open Scope nat_scope.

(** ** C21 *)
(** With three usable neighbours the selection answers: at least three different neighbours, all of them usable,
    each with a weight strictly between 0 and 1, and it contains every usable neighbour at least as likely a member
    as some threshold neighbour that is itself selected. *)
Theorem C21_selection : forall asort ex tf maxrad maxmag l, argsort_spec asort -> exp_like ex -> three_usable maxrad maxmag l ->
  exists sel pthresh, zl_select asort ex tf maxrad maxmag l = Ok (Some sel) /\ 3 <= List.length sel /\ NoDup (map fst sel) /\
   (forall i w, In (i, w) sel -> exists n, nth_error l i = Some n /\ usable maxrad maxmag n /\ (0 < w /\ w < 1)%Q) /\
   (exists i n, In i (map fst sel) /\ nth_error l i = Some n /\ z_wt n = pthresh) /\
   (forall i n, nth_error l i = Some n -> usable maxrad maxmag n -> (pthresh <= z_wt n)%Q -> In i (map fst sel)).
Proof. exact zl_chosen. Qed.
Print Assumptions C21_selection.
(** The selection declares failure exactly when there are not three usable neighbours. *)
Theorem C21_fail_iff : forall asort ex tf maxrad maxmag l,
  zl_select asort ex tf maxrad maxmag l = Ok None <-> ~ three_usable maxrad maxmag l.
Proof. exact zl_few. Qed.
Print Assumptions C21_fail_iff.
(** When the neighbours at the starting redshift hold fewer than three usable ones, the measurement returns -1
    for both the redshift and its error. *)
Theorem C21_fail_reported : forall asort ex tf maxrad minlam nbs lam fit E step tol maxiter zin m calcpz calc_err,
  (forall k i z mm, obs E k i z mm = one_pass asort ex tf maxrad minlam (nbs z) (lam z) (fit z) mm) ->
  0 < maxiter -> (0 <= zin)%Q -> (forall mm, ~ three_usable maxrad mm (nbs zin)) ->
  exists tr, calc_zlambda E step tol maxiter zin m calcpz calc_err = ((-1)%Q, (-1)%Q, tr).
Proof.
  intros asort ex tf maxrad minlam nbs lam fit E step tol maxiter zin m calcpz calc_err Ho Hm Hz Hf.
  destruct (calc_zlambda E step tol maxiter zin m calcpz calc_err) as [[z e] tr] eqn:Ec.
  assert (G : exists p, In p tr /\ pass_fails p = true).
  { unfold calc_zlambda in Ec. cbn [zouter] in Ec. destruct maxiter as [|mi]; [lia|]. cbn [zloop] in Ec.
    destruct (Qlt_bool zin 0) eqn:E0; [apply Qlt_bool_iff in E0; lra|]. cbv zeta in Ec. rewrite Ho in Ec.
    set (mm := if match m with Some _ => true | None => false end then _ else _) in Ec.
    assert (Hp : pass_fails (one_pass asort ex tf maxrad minlam (nbs zin) (lam zin) (fit zin) mm) = true).
    { unfold one_pass. destruct (existsb _ (nbs zin)); cbn [negb]; [|reflexivity]. destruct (Qlt_bool (lam zin) minlam); [reflexivity|].
      rewrite (proj2 (zl_few asort ex tf maxrad mm (nbs zin)) (Hf mm)). reflexivity. }
    clearbody mm. revert Ec Hp. destruct (one_pass _ _ _ _ _ _ _ _ mm) as [| | |v]; intros Ec Hp; try discriminate Hp;
    (injection Ec as <- <- <-; eexists; split; [left; reflexivity|reflexivity]). }
  destruct G as [p [Hin Hp]]. unfold calc_zlambda in Ec. destruct (zouter_fail _ _ _ _ _ _ _ _ _ _ _ _ _ _ _ p Ec Hin Hp) as [-> ->].
  eauto.
Qed.
Print Assumptions C21_fail_reported.
Definition ex0 (x : Q) : Q := if Qle_bool x 0 then 1%Q else 2%Q.
Example C21_hyps : argsort_spec argsort /\ exp_like ex0 /\
  three_usable 1 20 [mkZN (1#2) 18 (1#2); mkZN (1#2) 18 0; mkZN (1#4) 19 (9#10); mkZN (1#4) 18 1] /\
  ~ three_usable 1 20 [mkZN (1#2) 18 (1#2)].
Proof.
  split; [exact argsort_ok|]. split; [|split].
  - intros x. unfold ex0. destruct (Qle_bool x 0) eqn:E; [split; lra|]. apply Qle_bool_false in E. split; lra.
  - exists 0, 2, 3, (mkZN (1#2) 18 (1#2)), (mkZN (1#4) 19 (9#10)), (mkZN (1#4) 18 1). unfold usable; cbn. repeat split; try lia; reflexivity.
  - intros (i & j & k & a & b & c & H & _ & Hb & _). destruct j as [|[|j]]; cbn in Hb; [lia|discriminate|discriminate].
Qed.

(** ** C22 *)
Theorem C22_bounded : forall E step tol maxiter zin m calcpz calc_err z e tr,
  calc_zlambda E step tol maxiter zin m calcpz calc_err = (z, e, tr) -> List.length tr <= 2 * maxiter.
Proof. intros E step tol maxiter zin m calcpz calc_err z e tr H. exact (zouter_len _ _ _ _ _ _ _ _ _ _ _ _ _ _ _ H). Qed.
Print Assumptions C22_bounded.
(** A pass that finds no neighbour, too small a richness or too few neighbours, at whatever point of the history,
    makes the result -1 for redshift and error.  Missing: a parabola fit without a minimum (see the refutation). *)
Theorem C22_failure_reported_partial : forall E step tol maxiter zin m calcpz calc_err z e tr p,
  calc_zlambda E step tol maxiter zin m calcpz calc_err = (z, e, tr) -> In p tr -> pass_fails p = true ->
  z = (-1)%Q /\ e = (-1)%Q.
Proof. intros E step tol maxiter zin m calcpz calc_err z e tr p H. exact (zouter_fail _ _ _ _ _ _ _ _ _ _ _ _ _ _ _ p H). Qed.
Print Assumptions C22_failure_reported_partial.
(** The whole history without p(z): the first pass is made at the redshift given, each further one at the redshift the
    pass before proposed.  The search ends where the proposal differs by less than the tolerance (or is negative), or
    with the proposal of the last pass allowed.  Then the result is that redshift, or -1 when no error can be found.
    The magnitude limit is that of the redshift given, and that of each pass when a limit is given (see C21). *)
Theorem C22_history : forall E step tol maxiter zin m calc_err z e tr, (0 <= step)%Q -> (0 <= zin)%Q -> 1 <= maxiter ->
  calc_zlambda E step tol maxiter zin m false calc_err = (z, e, tr) ->
  exists zs z1, search (fun i zi => obs E 0 i zi (match m with Some _ => mlim E zi | None => mlim E zin end)) step tol maxiter zin zs tr z1 /\
    (((0 < z1)%Q /\ calc_err = true /\ e = gauss E z1 /\ z = if Qlt_le_dec e 0 then (-1)%Q else z1) \/
     ((~ (0 < z1)%Q \/ calc_err = false) /\ e = (-1)%Q /\ z = z1)).
Proof.
  intros E step tol maxiter zin m calc_err z e tr Hs Hz Hm H. unfold calc_zlambda in H. cbn [zouter] in H.
  destruct (zloop _ _ _ _ _ maxiter 0 zin _) as [[z1 i1] tr1] eqn:El. apply zloop_search in El; auto. destruct El as (zs & F).
  assert (G : search (fun i zi => obs E 0 i zi (match m with Some _ => mlim E zi | None => mlim E zin end)) step tol maxiter zin zs tr1 z1) by (destruct m; exact F).
  exists zs, z1. destruct (Qlt_bool 0 z1) eqn:Ez; cbn [andb negb] in H; [destruct calc_err|].
  - apply Qlt_bool_iff in Ez. destruct (Qlt_bool (gauss E z1) 0) eqn:Eg; injection H as <- <- <-; (split; [exact G|left]); repeat split; auto;
      destruct (Qlt_le_dec (gauss E z1) 0) as [q|q]; try reflexivity; [apply Qlt_bool_iff in Eg|apply Qlt_bool_false in Eg]; lra.
  - injection H as <- <- <-. split; [exact G|right]. auto.
  - apply Qlt_bool_false in Ez. injection H as <- <- <-. split; [exact G|right]. split; [left; lra|auto].
Qed.
Print Assumptions C22_history.
Example C22_history_case : let E := mkZE (fun _ i _ _ => Fit (Some (if Nat.eqb i 0 then 32#100 else 31#100)%Q)) (fun _ => 1#100)%Q (fun _ _ => PzBad) (fun _ => 20%Q) in
  exists tr, calc_zlambda E (1#100) (1#1000) 5 (29#100) None false true = (31#100, 1#100, tr)%Q /\ List.length tr = 3.
Proof. eexists. split; [vm_compute; reflexivity|reflexivity]. Qed.
(** Without p(z) the result is -1 or within 5.5 steps per pass of the start.  Missing: the p(z) mode. *)
Theorem C22_range_partial : forall E step tol maxiter zin m calc_err z e tr, (0 <= step)%Q ->
  calc_zlambda E step tol maxiter zin m false calc_err = (z, e, tr) ->
  z = (-1)%Q \/ (Qabs (z - zin) <= (11#2) * step * inject_Z (Z.of_nat (List.length tr)))%Q.
Proof.
  intros E step tol maxiter zin m calc_err z e tr Hs H. unfold calc_zlambda in H. cbn [zouter] in H.
  destruct (zloop _ _ _ _ _ maxiter 0 zin _) as [[z1 i1] tr1] eqn:El. apply zloop_range in El; [|exact Hs].
  destruct (_ && _); cbn [negb] in H.
  - destruct (Qlt_bool (gauss E z1) 0); injection H as <- <- <-; [left; reflexivity|exact El].
  - injection H as <- <- <-. exact El.
Qed.
Print Assumptions C22_range_partial.
(** A fit that has no minimum in any pass is reported as a positive redshift with an error: the stand-in value -1 is
    replaced by the lower end of the fitted range. *)
Theorem C22_fit_failure_refuted : forall E step tol maxiter zin m, (0 <= step)%Q -> 0 < maxiter ->
  (forall k i z mm, obs E k i z mm = Fit None) -> (forall z, 0 <= gauss E z)%Q ->
  ((11#2) * step * inject_Z (Z.of_nat maxiter) < zin)%Q ->
  exists z e tr, calc_zlambda E step tol maxiter zin m false true = (z, e, tr) /\ tr <> [] /\ never_measured tr /\ (0 < z)%Q /\ (0 <= e)%Q.
Proof.
  intros E step tol maxiter zin m Hs Hm Ho Hg Hz. unfold calc_zlambda. cbn [zouter].
  destruct (zloop _ _ _ _ _ maxiter 0 zin _) as [[z1 i1] tr1] eqn:El.
  destruct (zloop_none _ _ _ _ _ _ _ _ _ _ _ _ Hs (Ho 0) Hz El) as [H1 H2].
  pose proof (proj2 (Qlt_bool_iff 0 z1) H2) as H3. rewrite H3. cbn [andb negb].
  destruct (Qlt_bool (gauss E z1) 0) eqn:Eg; [apply Qlt_bool_iff in Eg; specialize (Hg z1); lra|].
  exists z1, (gauss E z1), tr1. repeat split; auto.
  apply (zloop_nonempty _ _ _ _ _ _ _ _ _ _ _ _ Hm) in El; [exact El|].
  assert (0 <= inject_Z (Z.of_nat maxiter))%Q by (change 0%Q with (inject_Z 0); rewrite <- Zle_Qle; lia). nra.
Qed.
Print Assumptions C22_fit_failure_refuted.
(** Close to zero the same failure comes out as a negative redshift other than -1. *)
Definition E_none : zenv := mkZE (fun _ _ _ _ => Fit None) (fun _ => 1#100)%Q (fun _ _ => PzBad) (fun _ => 20%Q).
(** Finding: close to zero a failed fit comes out as a negative redshift other than -1. *)
Theorem C22_negative_refuted : exists E step tol maxiter zin z e tr, (0 <= step)%Q /\ (0 < zin)%Q /\
  calc_zlambda E step tol maxiter zin None false true = (z, e, tr) /\ (z < 0)%Q /\ ~ (z == -1)%Q.
Proof.
  exists E_none, (1#100)%Q, (1#1000)%Q, 5, (1#100)%Q. do 3 eexists. do 2 (split; [lra|]). split; [vm_compute; reflexivity|]. split; [reflexivity|discriminate].
Qed.
Print Assumptions C22_negative_refuted.
(** Without a request for errors every outcome, also a success, has the error -1 that marks failure. *)
Theorem C22_no_errors_refuted : forall E step tol maxiter zin m calcpz z e tr,
  calc_zlambda E step tol maxiter zin m calcpz false = (z, e, tr) -> e = (-1)%Q.
Proof.
  intros E step tol maxiter zin m calcpz z e tr. unfold calc_zlambda. cbn [zouter].
  destruct (zloop _ _ _ _ _ maxiter 0 zin _) as [[z1 i1] tr1]. rewrite andb_false_r. intros H.
  apply (f_equal (fun x => snd (fst x))) in H. cbn in H. congruence.
Qed.
Print Assumptions C22_no_errors_refuted.
Example C22_case : exists z tr, calc_zlambda (mkZE (fun _ i _ _ => if Nat.eqb i 1 then LowRichness else Fit (Some (3#10)%Q))
    (fun _ => 1#100)%Q (fun _ _ => PzBad) (fun _ => 20%Q)) (1#100) (1#10000) 5 (29#100) None false true = (z, (-1)%Q, tr) /\ List.length tr = 2.
Proof. do 2 eexists. split; [vm_compute; reflexivity|reflexivity]. Qed.

(** ** C24 *)
(** The usual (fast) grid: n uniformly spaced points from z - dz to z + dz with dz between 0.005 and 0.15. *)
Theorem C24_fast_grid : forall n z zhi, 2 <= n -> exists dz, ((5#1000) <= dz /\ dz <= (15#100))%Q /\
  uniform n (z - dz) (2 * dz / (qn n - 1)) (fast_grid n z zhi) /\
  (forall i j x y, i < j -> nth_error (fast_grid n z zhi) i = Some x -> nth_error (fast_grid n z zhi) j = Some y -> (x < y)%Q) /\
  (forall x, nth_error (fast_grid n z zhi) (n - 1) = Some x -> (x == z + dz)%Q).
Proof.
  intros n z zhi Hn. destruct (fast_uniform n z zhi Hn) as (dz & B & U). exists dz. split; [exact B|]. split; [exact U|]. split.
  - intros i j x y. apply (uniform_increasing _ _ _ _ i j x y U).
  - intros x Hx. destruct U as (_ & _ & U). rewrite (U _ _ Hx). change (inject_Z (Z.of_nat (n - 1))) with (qn (n - 1)).
    assert (Eq : (qn n == qn (n - 1) + 1)%Q) by (rewrite <- qn_S; replace (S (n - 1)) with n by lia; reflexivity).
    rewrite Eq. pose proof (qn_lt 0 (n - 1) ltac:(lia)). change (qn 0) with 0%Q in *. field. lra.
Qed.
Print Assumptions C24_fast_grid.
(** With an odd number of bins the middle point of the fast grid is z_lambda. *)
Theorem C24_middle_partial : forall m z zhi x, 1 <= m -> nth_error (fast_grid (2 * m + 1) z zhi) m = Some x -> (x == z)%Q.
Proof. exact fast_middle. Qed.
Print Assumptions C24_middle_partial.
(** With an even number of bins no grid point is at z. *)
Theorem C24_even_bins_refuted : forall m z zhi k x, 1 <= m -> nth_error (fast_grid (2 * m) z zhi) k = Some x -> ~ (x == z)%Q.
Proof. exact fast_even. Qed.
Print Assumptions C24_even_bins_refuted.
(** The slow mode's search for the limits ends inside the redshift range, for every likelihood. *)
Theorem C24_slow_limits : forall f ratio zmin zmax z, (zmin <= z <= zmax)%Q -> (zmax - zmin < (5#100) * qn f)%Q ->
  exists lo hi, walk_low (S f) ratio zmin (z - (5#100)) = Some lo /\ walk_high (S f) ratio zmax (z + (5#100)) = Some hi /\
   (zmin <= lo /\ lo <= z /\ z <= hi /\ hi <= zmax)%Q.
Proof.
  intros f ratio zmin zmax z [H1 H2] Hf.
  destruct (walk_low_ends f ratio zmin (z - (5#100))%Q) as (lo & A1 & A2 & A3); [lra|].
  destruct (walk_high_ends f ratio zmax (z + (5#100))%Q) as (hi & B1 & B2 & B3); [lra|].
  exists lo, hi. split; [exact A1|]. split; [exact B1|]. repeat split; auto.
  - eapply Qle_trans; [exact A3|]. unfold Qmax2. destruct (Qle_bool _ _); lra.
  - eapply Qle_trans; [|exact B3]. unfold Qmin2. destruct (Qle_bool _ _); lra.
Qed.
Print Assumptions C24_slow_limits.
(** The slow grid is uniform and has z among its points. *)
Theorem C24_slow_grid : forall n z lo hi, 2 <= n -> (lo < hi)%Q -> exists g a k x, slow_grid n z lo hi = Ok g /\
  uniform n a ((hi - lo) / (qn n - 1)) g /\ nth_error g k = Some x /\ (x == z)%Q.
Proof. exact slow_uniform. Qed.
Print Assumptions C24_slow_grid.
(** But z need not be its middle point, and the grid can leave the redshift range. *)
Theorem C24_slow_middle_refuted : exists zmin zmax z lo hi g mid last, (zmin <= z <= zmax)%Q /\
  walk_low 50 (fun _ => 0%Q) zmin (z - (5#100)) = Some lo /\ walk_high 50 (fun _ => 0%Q) zmax (z + (5#100)) = Some hi /\
  slow_grid 3 z lo hi = Ok g /\ nth_error g 1 = Some mid /\ ~ (mid == z)%Q /\ nth_error g 2 = Some last /\ (zmax < last)%Q.
Proof.
  exists (9#100)%Q, (15#100)%Q, (1#10)%Q. do 5 eexists. split; [lra|]. split; [vm_compute; reflexivity|]. split; [vm_compute; reflexivity|].
  split; [vm_compute; reflexivity|]. split; [reflexivity|]. split; [discriminate|]. split; [reflexivity|reflexivity].
Qed.
Print Assumptions C24_slow_middle_refuted.
(** p(z) is non-negative and integrates to 1 on either grid. *)
Theorem C24_pz : forall ex lk vf simps bins, homogeneous simps -> (forall x, 0 < ex x)%Q -> (forall x, 0 <= vf x)%Q ->
  (0 < simps (map (fun b => (ex (lk b - Qlmax (map lk bins)) * vf b)%Q) bins) bins)%Q ->
  (simps (pz_values ex lk vf simps bins) bins == 1)%Q /\ (forall p, In p (pz_values ex lk vf simps bins) -> (0 <= p)%Q).
Proof.
  intros ex lk vf simps bins H He Hv Hs. split; [apply pz_normal; [exact H|]; intros C; rewrite C in Hs; lra|].
  intros p. apply pz_nonneg; assumption.
Qed.
Print Assumptions C24_pz.
Example C24_hyps : let simps := fun (ys xs : list Q) => Qsum ys in homogeneous simps /\ exists g, fast_grid 5 (3#10) (4#10) = g /\
  (0 < simps (map (fun b => (ex0 (b - Qlmax (map (fun b => b) g)) * 1)%Q) g) g)%Q.
Proof.
  cbv zeta. split.
  - intros c ys xs. induction ys as [|y ys IH]; cbn [map Qsum]; [unfold Qdiv; ring|]. rewrite IH. unfold Qdiv. ring.
  - eexists. split; [reflexivity|]. vm_compute. reflexivity.
Qed.

(** ** C65 *)
(** The limit passed in never matters: two calls with different limits give the same result in every environment. *)
Theorem C65_limit_ignored_refuted : forall E step tol maxiter zin m m' calcpz calc_err,
  calc_zlambda E step tol maxiter zin (Some m) calcpz calc_err = calc_zlambda E step tol maxiter zin (Some m') calcpz calc_err.
Proof. intros. unfold calc_zlambda. apply zouter_given. Qed.
Print Assumptions C65_limit_ignored_refuted.
(** And without one, the limit of the starting redshift is kept while the redshift moves: for a program that records
    the limit it is asked with, the second pass still sees the first limit. *)
Definition E_mag : zenv := mkZE (fun _ i z mm => if Nat.eqb i 1 then (if Qeq_bool mm 20 then LowRichness else NoNeighbor) else Fit (Some (3#10)%Q))
  (fun _ => 1#100)%Q (fun _ _ => PzBad) (fun z => if Qeq_bool z (2#10) then 20%Q else 21%Q).
(** Finding: without a limit, the limit of the first redshift is kept for every later iteration, whatever redshift it has moved to. *)
Theorem C65_stale_limit_refuted : exists z e, calc_zlambda E_mag (1#10) (1#10000) 5 (2#10) None false true = (z, e, [Fit (Some (3#10)%Q); LowRichness]).
Proof. do 2 eexists. vm_compute. reflexivity. Qed.
Print Assumptions C65_stale_limit_refuted.
