(** C18, C19: calc_richness and the completeness weight. *)
From Coq Require Import Reals Lra.
From Verif.Base Require Import Py PyLemmas.
From Verif.Model Require Import BkgGen Solver Richness.
From Verif.Spec Require Import Solver Richness.
From Verif.Proofs Require Import BkgGen Solver Richness.
From Verif.Props Require Import Solver.
Local Open Scope R_scope.

(** ** C19 *)
Theorem C19_bounds : forall erf mag err mx lim, (forall x, -1 <= erf x <= 1) -> 0 <= theta_i erf mag err mx lim <= 1.
Proof. exact theta_bounds. Qed.
Print Assumptions C19_bounds.
Theorem C19_faint : forall erf mag err mx lim, lim < mag -> theta_i erf mag err mx lim = 0.
Proof. exact theta_faint. Qed.
Print Assumptions C19_faint.
Theorem C19_bright : forall erf mag err mx lim, 0 <= mx -> 0 <= err -> mag + 5 * err <= Rmin mx lim -> theta_i erf mag err mx lim = 1.
Proof.
  intros erf mag err mx lim Hm He H. apply theta_bright; [exact He|]. unfold eff_lim. rewrite (Rmax_left mx 0) by lra. lra.
Qed.
Print Assumptions C19_bright.
Theorem C19_monotone : forall erf m1 m2 err mx lim, (forall x, -1 <= erf x <= 1) -> erf_mono erf ->
  0 < err -> m1 <= m2 -> theta_i erf m2 err mx lim <= theta_i erf m1 err mx lim.
Proof. exact theta_mono. Qed.
Print Assumptions C19_monotone.
(** a function with the two properties assumed of erf *)
Example C19_erf_exists : exists erf : R -> R, (forall x, -1 <= erf x <= 1) /\ erf_mono erf /\ erf 0 = 0 /\ erf 1 = 1.
Proof.
  exists (fun x => Rmax (-1) (Rmin 1 x)). repeat split.
  - apply Rmax_l.
  - apply Rmax_lub; [lra|apply Rmin_l].
  - intros x y H. unfold Rmax, Rmin. repeat destruct (Rle_dec _ _); lra.
  - unfold Rmax, Rmin. repeat destruct (Rle_dec _ _); lra.
  - unfold Rmax, Rmin. repeat destruct (Rle_dec _ _); lra.
Qed.

(** ** C18.  After calc_richness: the same galaxies in the same order; galaxies that were not selected have all
    results zero. *)
Theorem C18_unselected : forall fuel tol e f cerr nbs idx c, idx_ok nbs idx ->
  calc_richness fuel tol e f cerr nbs idx = Some (Ok c) ->
  List.length (c_nbs c) = List.length nbs /\
  (forall j x, nth_error nbs j = Some x -> exists y, nth_error (c_nbs c) j = Some y /\ same_gal x y /\ (~ In j idx -> zeroed y)).
Proof.
  intros fuel tol e f cerr nbs idx c [Hnd Hr] H. unfold calc_richness in H.
  destruct (solve _ _ _ _) as [s|] eqn:Es; [|discriminate]. cbn [option_map] in H. injection H as H.
  apply finish_inv in H.
  assert (Hla : List.length (o_arr s) = List.length idx).
  { destruct (solve_inv _ _ _ _ _ Es) as (n & t & _ & -> & _ & _ & [Hg _] & _). rewrite solve_end_arr.
    rewrite weights_length by exact Hg. rewrite map_length. apply sel_len, Hr. }
  destruct H as [_ | Hl m Hm Hm0 err _]; cbn [c_nbs].
  - split; [apply map_length|]. intros j x Hj. rewrite nth_error_map, Hj. eexists. split; [reflexivity|].
    split; [repeat split|intros _; repeat split].
  - split; [rewrite scatter_length; apply map_length|]. intros j x Hj.
    assert (Hrl : List.length (rows e f nbs idx s) = List.length idx).
    { unfold rows. rewrite map_length, combine_length, sel_len, Hla by exact Hr. apply Nat.min_id. }
    destruct (in_dec Nat.eq_dec j idx) as [Hin|Hin].
    + apply In_nth_error in Hin as [k Hk].
      assert (Ha : exists a, nth_error (o_arr s) k = Some a).
      { destruct (nth_error (o_arr s) k) eqn:E; [eauto|]. apply nth_error_None in E.
        assert (k < List.length idx)%nat by (apply nth_error_Some; congruence). lia. }
      destruct Ha as [a Ha].
      exists (good_row e f s x a). split; [|split; [repeat split|]].
      * apply scatter_in with (k := k).
        -- rewrite map_fst_combine; [exact Hnd|symmetry; exact Hrl].
        -- rewrite nth_combine, Hk. unfold rows. rewrite nth_error_map, nth_combine.
           rewrite (sel_nth nbs idx k j Hr Hk), Hj, Ha. reflexivity.
        -- rewrite map_length. apply nth_error_Some. congruence.
      * intros h. exfalso. apply h. eapply nth_error_In, Hk.
    + exists (set5 x 0 0 0 0 0). split; [|split; [repeat split|intros _; repeat split]].
      rewrite scatter_notin; [rewrite nth_error_map, Hj; reflexivity|].
      rewrite map_fst_combine; [exact Hin|symmetry; exact Hrl].
Qed.
Print Assumptions C18_unselected.

(** A failed measurement: richness, error and scale value are -1 and every result is zero.  Otherwise the richness is
    in [1,2000), the scale value is positive and times the sum of all memberships gives the richness, and every
    selected galaxy has 0 <= p <= 1, 0 <= pmem <= theta_i * pfree, 0 <= pcol <= 1, with pcol = 0 beyond r_lambda or
    beyond either magnitude limit; with a hard cut pmem = 0 beyond r_lambda; within the radius and the limits pcol is the
    share of the cluster in cluster plus background. *)
Theorem C18_account : forall fuel tol e f cerr nbs idx c, idx_ok nbs idx -> Forall (nb_ok f) nbs -> erf_ok e -> tol < 999 ->
  calc_richness fuel tol e f cerr nbs idx = Some (Ok c) ->
  (c_lambda c = -1 /\ c_scaleval c = -1 /\ c_lambda_e c = -1 /\ Forall zeroed (c_nbs c)) \/
  (1 <= c_lambda c < 2000 /\ c_rlambda c = cluster_radius e (c_lambda c) /\ 0 < c_scaleval c /\
   c_scaleval c * Rsum (map n_pmem (c_nbs c)) = c_lambda c /\
   (0 <= c_lambda_e c) /\ cerr * cerr <= c_lambda_e c * c_lambda_e c /\
   (forall j y, nth_error (c_nbs c) j = Some y -> In j idx ->
      n_thi y = theta_i (e_erf e) (n_mag y) (n_err y) (f_maxmag f) (f_limmag f) /\
      0 <= n_thr y <= 1 /\ 0 <= n_p y <= 1 /\ 0 <= n_pmem y <= n_thi y * n_pfree y /\ 0 <= n_pcol y <= 1 /\
      (c_rlambda c < n_r y \/ f_maxmag f < n_mag y \/ f_limmag f < n_mag y -> n_pcol y = 0) /\
      (e_rsig e <= 0 -> c_rlambda c <= n_r y -> n_pmem y = 0) /\
      (forall x b, nth_error nbs j = Some x -> f_b f x = Bval b -> n_r y <= c_rlambda c -> n_mag y <= f_maxmag f -> n_mag y <= f_limmag f ->
         0 < f_col f x * c_lambda c + b -> n_pcol y * (f_col f x * c_lambda c + b) = f_col f x * c_lambda c))).
Proof.
  intros fuel tol e f cerr nbs idx c [Hnd Hr] Hok He Ht H. unfold calc_richness in H.
  destruct (solve _ _ _ _) as [s|] eqn:Es; [|discriminate]. cbn [option_map] in H. injection H as H.
  apply finish_inv in H.
  set (gs := map (gal_of e f) (np_sel nbs idx)) in *.
  assert (Hgs : Forall gal_ok gs).
  { apply Forall_forall. intros g Hg. apply in_map_iff in Hg as (x & <- & Hx). apply np_sel_In in Hx as (i & _ & Hx).
    rewrite Forall_forall in Hok. destruct (Hok x (nth_error_In _ _ Hx)) as (Hp & Hu & _ & Hb).
    unfold gal_ok, gal_of. cbn [g_u g_w g_b]. split; [exact Hu|]. split; [|exact Hb].
    apply Rmult_le_pos; [apply theta_bounds, He|lra]. }
  destruct (C17_bounds _ _ _ _ _ Hgs He Es) as [Hlen Hb].
  assert (Hla : List.length (o_arr s) = List.length idx).
  { rewrite Hlen. unfold gs. rewrite map_length. apply sel_len, Hr. }
  destruct (C16_range _ _ _ _ _ Es) as [[Hl1 Hl2]|[Hl1 Hl2]].
  - destruct H as [_|Hl m Hm Hm0 err _]; [|lra]. left. cbn [c_lambda c_scaleval c_lambda_e c_nbs].
    repeat split. apply Forall_forall. intros y Hy. apply in_map_iff in Hy as (x & <- & _). repeat split.
  - destruct H as [Hf|Hl m Hm Hm0 err Herr].
    + left. cbn [c_lambda c_scaleval c_lambda_e c_nbs].
      repeat split. apply Forall_forall. intros y Hy. apply in_map_iff in Hy as (x & <- & _). repeat split.
    + right. cbn [c_lambda c_scaleval c_lambda_e c_nbs c_rlambda].
      set (pm := map a_wt (o_arr s)) in *.
      assert (Hpm : forall x, In x pm -> 0 <= x <= 1).
      { intros x Hx. unfold pm in Hx. apply in_map_iff in Hx as (a & <- & Ha). apply In_nth_error in Ha as [k Hk].
        assert (Hg : exists g, nth_error gs k = Some g).
        { destruct (nth_error gs k) eqn:E; [eauto|]. apply nth_error_None in E.
          assert (k < List.length (o_arr s))%nat by (apply nth_error_Some; congruence). lia. }
        destruct Hg as [g Hg]. destruct (Hb k g a Hg Hk) as (_ & [W1 W2] & _). split; [exact W1|].
        apply nth_error_In in Hg. unfold gs in Hg. apply in_map_iff in Hg as (x & <- & Hx). apply np_sel_In in Hx as (i & _ & Hx).
        rewrite Forall_forall in Hok. destruct (Hok x (nth_error_In _ _ Hx)) as (Hp & _).
        cbn [gal_of g_w] in W2. pose proof (theta_bounds (e_erf e) (n_mag x) (n_err x) (f_maxmag f) (f_limmag f) He) as Hth.
        assert (theta_i (e_erf e) (n_mag x) (n_err x) (f_maxmag f) (f_limmag f) * n_pfree x <= 1 * 1)
          by (apply Rmult_le_compat; lra). lra. }
      apply lmax_spec in Hm as [Hmin Hmx].
      assert (Hsum : 0 < lsum pm).
      { rewrite lsum_Rsum. apply Rsum_pos with m; [intros x Hx; apply Hpm, Hx|exact Hmin|]. pose proof (Hpm m Hmin). lra. }
      assert (Hsc : 0 < o_lam s / lsum pm) by (apply Rdiv_lt_0_compat; lra).
      rewrite (Rabs_pos_eq (o_lam s / lsum pm)) in * by lra.
      assert (Hrl : List.length (rows e f nbs idx s) = List.length idx).
      { unfold rows. rewrite map_length, combine_length, sel_len, Hla by exact Hr. apply Nat.min_id. }
      split; [exact Hl1|]. split; [exact Hl2|]. split; [exact Hsc|].
      assert (Harg : 0 <= (1 - lsum (map (fun x => x * x) pm) / lsum pm) * (o_lam s / (o_lam s / lsum pm)) *
                          (o_lam s / lsum pm * (o_lam s / lsum pm))).
      { apply Rmult_le_pos; [|apply Rmult_le_pos; lra]. apply Rmult_le_pos.
        - assert (Hbar : lsum (map (fun x => x * x) pm) <= lsum pm).
          { rewrite !lsum_Rsum. clear - Hpm. induction pm as [|x l IH]; cbn; [lra|].
            specialize (IH (fun y Hy => Hpm y (or_intror Hy))). pose proof (Hpm x (or_introl eq_refl)). nra. }
          assert (lsum (map (fun x => x * x) pm) / lsum pm <= 1); [|lra].
          apply (Rmult_le_reg_r (lsum pm)); [exact Hsum|]. unfold Rdiv. rewrite Rmult_assoc, Rinv_l by lra. lra.
        - replace (o_lam s / (o_lam s / lsum pm)) with (lsum pm) by (field; lra). lra. }
      split; [|split; [|split]].
      * rewrite Rsum_scatter.
        -- assert (Hz : Rsum (map n_pmem (map (fun x => set5 x 0 0 0 0 0) nbs)) = 0).
           { clear. induction nbs as [|x l IH]; cbn; [reflexivity|]. rewrite IH. ring. }
           rewrite Hz. assert (Hpmem : map (fun e0 => n_pmem (snd e0)) (combine idx (rows e f nbs idx s)) = pm).
           { unfold rows, pm. pose proof (sel_len nbs idx Hr) as Hsl. revert Hla Hsl. generalize (np_sel nbs idx) (o_arr s). clear.
             induction idx as [|i idx IH]; intros [|x l] [|a arr] H1 H2; cbn in *; try discriminate; [reflexivity|].
             f_equal. apply IH; lia. }
           rewrite Hpmem, <- lsum_Rsum. field. lra.
        -- rewrite map_fst_combine; [exact Hnd|symmetry; exact Hrl].
        -- intros j Hj. rewrite map_fst_combine in Hj by (symmetry; exact Hrl). rewrite nth_error_map.
           rewrite Forall_forall in Hr. specialize (Hr j Hj). apply nth_error_Some in Hr.
           destruct (nth_error nbs j) as [x|]; [|congruence]. eexists. split; reflexivity.
      * rewrite Herr. apply sqrt_pos.
      * rewrite Herr, sqrt_def; [lra|]. assert (0 <= cerr * cerr) by nra. lra.
      * intros j y Hj Hin. apply In_nth_error in Hin as [k Hk].
        assert (Hx : exists x, nth_error nbs j = Some x).
        { rewrite Forall_forall in Hr. specialize (Hr j (nth_error_In _ _ Hk)). apply nth_error_Some in Hr.
          destruct (nth_error nbs j); [eauto|congruence]. }
        destruct Hx as [x Hx].
        assert (Ha : exists a, nth_error (o_arr s) k = Some a).
        { destruct (nth_error (o_arr s) k) eqn:E; [eauto|]. apply nth_error_None in E.
          assert (k < List.length idx)%nat by (apply nth_error_Some; congruence). lia. }
        destruct Ha as [a Ha].
        assert (Hy : nth_error (scatter (map (fun x => set5 x 0 0 0 0 0) nbs) (combine idx (rows e f nbs idx s))) j = Some (good_row e f s x a)).
        { apply scatter_in with (k := k).
          - rewrite map_fst_combine; [exact Hnd|symmetry; exact Hrl].
          - rewrite nth_combine, Hk. unfold rows. rewrite nth_error_map, nth_combine.
            rewrite (sel_nth nbs idx k j Hr Hk), Hx, Ha. reflexivity.
          - rewrite map_length. apply nth_error_Some. congruence. }
        rewrite Hy in Hj. injection Hj as <-.
        assert (Hg : nth_error gs k = Some (gal_of e f x)).
        { unfold gs. rewrite nth_error_map, (sel_nth nbs idx k j Hr Hk), Hx. reflexivity. }
        destruct (Hb k _ a Hg Ha) as (P1 & P2 & P3).
        unfold good_row, set5, th_i. cbn [n_thi n_thr n_p n_pmem n_pcol n_r n_mag n_err n_pfree].
        split; [reflexivity|]. split; [exact P3|]. split; [exact P1|]. split; [exact P2|].
        rewrite Forall_forall in Hok. destruct (Hok x (nth_error_In _ _ Hx)) as (_ & _ & Hc & Hbb).
        split; [|split; [|split]].
        -- unfold pcol_of. repeat (destruct (Rltb _ _); [lra|]). destruct (f_b f x) as [|b]; [lra|]. specialize (Hbb b eq_refl).
           destruct (Req_EM_T _ 0); [lra|]. assert (Hq : 0 <= f_col f x * o_lam s) by (apply Rmult_le_pos; lra).
           assert (Hd : 0 < f_col f x * o_lam s + b) by lra.
           split; [apply Rle_mult_inv_pos; lra|]. apply (Rmult_le_reg_r (f_col f x * o_lam s + b)); [exact Hd|].
           unfold Rdiv. rewrite Rmult_assoc, Rinv_l by lra. lra.
        -- unfold pcol_of. intros [h|[h|h]].
           ++ apply Rltb_iff in h. rewrite h. reflexivity.
           ++ destruct (Rltb (o_rlam s) _); [reflexivity|]. apply Rltb_iff in h. rewrite h. reflexivity.
           ++ destruct (Rltb (o_rlam s) _); [reflexivity|]. destruct (Rltb (f_maxmag f) _); [reflexivity|]. apply Rltb_iff in h. rewrite h. reflexivity.
        -- intros Hh Hrad. destruct (C17_formula _ _ _ _ _ Ht Es) as (lam & lam' & _ & _ & Hlam & F).
           destruct (F k _ a Hg Ha) as (_ & _ & F3). rewrite (F3 Hh). cbn [gal_of g_r].
           destruct (Rlt_dec (n_r x) (cluster_radius e lam')) as [q|q]; [|reflexivity]. exfalso.
           rewrite Hl2 in Hrad. destruct (Rlt_dec lam' 1) as [q1|q1]; [lra|]. rewrite Hlam in Hrad. lra.
        -- intros x' b Hx' Hb' h1 h2 h3 hd. rewrite Hx in Hx'. injection Hx' as <-. unfold pcol_of.
           destruct (Rltb (o_rlam s) (n_r x)) eqn:E1; [apply Rltb_iff in E1; lra|]. destruct (Rltb (f_maxmag f) (n_mag x)) eqn:E2; [apply Rltb_iff in E2; lra|].
           destruct (Rltb (f_limmag f) (n_mag x)) eqn:E3; [apply Rltb_iff in E3; lra|]. rewrite Hb'. destruct (Req_EM_T _ 0); [lra|]. field. lra.
Qed.
Print Assumptions C18_account.

(** The measurement fails exactly when the solver finds no richness or no galaxy has any weight. *)
Theorem C18_flag : forall fuel tol e f cerr nbs idx c s, 
  solve fuel tol e (map (gal_of e f) (np_sel nbs idx)) = Some s ->
  calc_richness fuel tol e f cerr nbs idx = Some (Ok c) ->
  (c_lambda c = -1 <-> o_lam s < 0 \/ (lmax (map a_wt (o_arr s)) = Ok 0)).
Proof.
  intros fuel tol e f cerr nbs idx c s Es H. unfold calc_richness in H. rewrite Es in H. cbn [option_map] in H. injection H as H.
  apply finish_inv in H. destruct H as [Hf|Hl m Hm Hm0 err _]; cbn [c_lambda]; [tauto|]. split.
  - intros h. lra.
  - intros [h|h]; [lra|]. congruence.
Qed.
Print Assumptions C18_flag.

(** a physical input: one neighbour *)
Example C18_input : idx_ok [mkNB (1/10) 18 (1/10) 1 0 0 0 0 0] [0%nat] /\
  Forall (nb_ok (mkF (fun _ => 1) (fun _ => 1) (fun _ => Bval 1) 20 21)) [mkNB (1/10) 18 (1/10) 1 0 0 0 0 0].
Proof.
  split.
  - split; [repeat constructor; intros []|repeat constructor].
  - constructor; [|constructor]. unfold nb_ok. cbn [n_pfree f_u f_col f_b]. split; [lra|]. split; [lra|]. split; [lra|].
    intros b [= <-]. lra.
Qed.
