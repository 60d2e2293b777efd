(** Property C82 (cluster.py calc_richness_fit, run_colormem.py _process_cluster). *)
From Coq Require Import Reals Lra.
From Verif.Base Require Import Py PyLemmas.
From Verif.Model Require Import BkgGen Solver Richness ColFit.
From Verif.Spec Require Import Solver Richness ColFit.
From Verif.Proofs Require Import BkgGen Solver Richness ColFit.
From Verif.Props Require Import Solver.
From Coq Require Import Lia List. Import ListNotations.
Local Open Scope R_scope.

(** C82.  Fewer red galaxies than required, in the first or the second selection: -10, scale value -1, and the
    neighbors are left alone. *)
Theorem C82_too_few : forall fuel tol e o c,
  ~ at_least (o_mingal o) (candidate o) (k_nbs c) \/
  (exists cent, o_cent o = Some cent /\ ~ at_least (o_mingal o) (fun x => candidate o x /\ near_color o cent x) (k_nbs c)) ->
  exists c', calc_richness_fit fuel tol e o c = Some (Ok (-10, c')) /\ k_scale c' = SVal (-1) /\ k_nbs c' = k_nbs c.
Proof.
  intros fuel tol e o c H. exists (set_scale c (SVal (-1))). split; [|split; reflexivity].
  unfold calc_richness_fit. cbv zeta.
  destruct (Nat.ltb_spec (List.length (filter (guse o) (k_nbs c))) (o_mingal o)) as [h|h]; [reflexivity|].
  destruct H as [H|(cent & Hc & H)].
  - exfalso. apply H. apply (at_least_iff _ (guse o)); [apply guse_iff|exact h].
  - rewrite Hc.
    destruct (Nat.ltb_spec (List.length (filter (in2sig o cent) (filter (guse o) (k_nbs c)))) (o_mingal o)) as [h2|h2]; [reflexivity|].
    exfalso. apply H. apply (at_least_iff _ (fun x => guse o x && in2sig o cent x)).
    + intros x. rewrite andb_true_iff, guse_iff, in2sig_iff. reflexivity.
    + assert (E : forall l, filter (in2sig o cent) (filter (guse o) l) = filter (fun x => guse o x && in2sig o cent x) l).
      { induction l as [|x l IH]; cbn; [reflexivity|]. destruct (guse o x); cbn; [destruct (in2sig o cent x); rewrite IH; reflexivity|exact IH]. }
      rewrite <- E. exact h2.
Qed.
Print Assumptions C82_too_few.

(** C82.  A call without errors returns -10 (not measured), -1 (no richness found: all results zero), or a richness in
    [1,2000) with its radius, a scale value with scale * sum(pmem) = richness, and memberships in [0, pfree]. *)
Theorem C82_outcome : forall fuel tol e o c lam c', erf_ok e -> o_err o = false ->
  (forall good, Forall (phys (o_fit o good)) (k_nbs c)) ->
  calc_richness_fit fuel tol e o c = Some (Ok (lam, c')) ->
  (lam = -10 /\ k_nbs c' = k_nbs c) \/
  (lam = -1 /\ k_lambda c' = -1 /\ k_scale c' = SVal (-1) /\ forall x, In x (k_nbs c') -> n_pmem (cn x) = 0 /\ n_pcol (cn x) = 0) \/
  (1 <= lam < 2000 /\ k_lambda c' = lam /\ k_rlambda c' = radius e lam /\ List.length (k_nbs c') = List.length (k_nbs c) /\
   (forall s, k_scale c' = SVal s -> 0 < s /\ s * Rsum (map (fun x => n_pmem (cn x)) (k_nbs c')) = lam) /\
   (k_scale c' = SInf -> forall x, In x (k_nbs c') -> n_pmem (cn x) = 0) /\
   (forall x, In x (k_nbs c') -> 0 <= n_p (cn x) <= 1 /\ 0 <= n_pmem (cn x) <= n_pfree (cn x) /\ 0 <= n_pcol (cn x) <= 1 /\
      (k_rlambda c' < n_r (cn x) -> n_pcol (cn x) = 0))).
Proof.
  intros fuel tol e o c lam c' He Herr Hph H.
  destruct (fit_cases _ _ _ _ _ _ H) as [(s & _ & [= -> ->])|[(x & [=] & _)|(f & s & Hs & Hr & good & Hf)]].
  { left. split; [reflexivity|]. destruct c; reflexivity. }
  right. symmetry in Hr. unfold fit_end in Hr. rewrite Herr in Hr. specialize (Hph good). rewrite <- Hf in Hph.
  pose proof (gals_ok e f (k_nbs c) He Hph) as Hg.
  destruct (C17_bounds _ _ _ _ _ Hg He Hs) as [Hlen Hb]. rewrite map_length in Hlen.
  destruct (C16_range _ _ _ _ _ Hs) as [[Hl1 Hl2]|[Hl1 Hl2]].
  - left. assert (E : Rltb (o_lam s) 0 = true) by (apply Rltb_iff; lra). rewrite E in Hr. injection Hr as <- <-.
    cbn [k_lambda k_scale k_nbs]. split; [exact Hl1|]. split; [exact Hl1|]. split; [reflexivity|].
    intros x Hx. apply in_map_iff in Hx as (y & <- & _). split; reflexivity.
  - right. assert (E : Rltb (o_lam s) 0 = false) by (apply Rltb_false; lra). rewrite E in Hr. injection Hr as <- <-.
    cbn [k_lambda k_scale k_nbs k_rlambda]. split; [exact Hl1|]. split; [reflexivity|]. split; [exact Hl2|].
    split. { rewrite map_length, combine_length, Hlen. apply Nat.min_id. }
    rewrite pmem_rows by exact Hlen. rewrite lsum_Rsum.
    assert (Hnn : forall w, In w (map a_wt (o_arr s)) -> 0 <= w).
    { intros w Hw. apply in_map_iff in Hw as (a & <- & Ha). apply In_nth_error in Ha as [k Hk].
      destruct (nth_error (map (fun x => gal_of e f (cn x)) (k_nbs c)) k) as [g|] eqn:Eg.
      - apply (Hb k g a Eg Hk).
      - apply nth_error_None in Eg. rewrite map_length in Eg.
        assert (k < List.length (o_arr s))%nat by (apply nth_error_Some; congruence). lia. }
    clear H. split; [|split].
    + intros sc. destruct (Req_EM_T _ 0) as [z|nz]; [discriminate|]. intros [= <-].
      pose proof (Rsum_nonneg _ Hnn) as H0.
      assert (Hp : 0 < o_lam s / Rsum (map a_wt (o_arr s))) by (apply Rdiv_lt_0_compat; lra).
      rewrite Rabs_pos_eq by lra. split; [exact Hp|]. field. exact nz.
    + destruct (Req_EM_T _ 0) as [z|nz]; [|discriminate]. intros _ x Hx.
      assert (Hw : In (n_pmem (cn x)) (map a_wt (o_arr s))).
      { rewrite <- (pmem_rows e f (k_nbs c) (o_arr s) (o_lam s) (o_rlam s) Hlen). apply (in_map (fun x => n_pmem (cn x))), Hx. }
      destruct (Req_EM_T (n_pmem (cn x)) 0) as [z0|nz]; [exact z0|]. exfalso.
      pose proof (Rsum_pos _ _ Hnn Hw). pose proof (Hnn _ Hw). lra.
    + intros x Hx. apply in_map_iff in Hx as ((y, a) & <- & Hya). apply In_nth_error in Hya as [k Hk].
      rewrite nth_combine in Hk. destruct (nth_error (k_nbs c) k) as [y'|] eqn:Ey; [|discriminate].
      destruct (nth_error (o_arr s) k) as [a'|] eqn:Ea; [|discriminate]. injection Hk as -> ->.
      assert (Eg : nth_error (map (fun x => gal_of e f (cn x)) (k_nbs c)) k = Some (gal_of e f (cn y))) by (rewrite nth_error_map, Ey; reflexivity).
      destruct (Hb k _ _ Eg Ea) as (B1 & B2 & B3). cbn [gal_of g_w] in B2.
      rewrite Forall_forall in Hph. destruct (Hph y (nth_error_In _ _ Ey)) as (P1 & P2 & P3 & P4 & P5).
      unfold set_row, set5. cbn [cn n_p n_pmem n_pfree n_pcol n_r].
      split; [exact B1|]. split.
      { pose proof (theta_bounds (e_erf e) (n_mag (cn y)) (n_err (cn y)) (f_maxmag f) (f_limmag f) He) as Ht. split; [apply B2|].
        assert (theta_i (e_erf e) (n_mag (cn y)) (n_err (cn y)) (f_maxmag f) (f_limmag f) * n_pfree (cn y) <= 1 * n_pfree (cn y))
          by (apply Rmult_le_compat_r; lra). lra. }
      split.
      * unfold pcol_fit. repeat (destruct (Rltb _ _); [lra|]). destruct (f_b f (cn y)) as [|b] eqn:Eb; [lra|]. specialize (P5 b eq_refl).
        assert (Hq : 0 < f_col f (cn y) * o_lam s) by (apply Rmult_lt_0_compat; lra).
        assert (Hq2 : 0 <= b * (o_rlam s * o_rlam s) / (2 * n_r (cn y))).
        { apply Rmult_le_pos; [apply Rmult_le_pos; [exact P5|nra]|apply Rlt_le, Rinv_0_lt_compat; lra]. }
        split; [apply Rle_mult_inv_pos; lra|].
        apply (Rmult_le_reg_r (f_col f (cn y) * o_lam s + b * (o_rlam s * o_rlam s) / (2 * n_r (cn y)))); [lra|].
        unfold Rdiv at 1. rewrite Rmult_assoc, Rinv_l by lra. lra.
      * intros Hr'. unfold pcol_fit. apply Rltb_iff in Hr'. rewrite Hr'. reflexivity.
Qed.
Print Assumptions C82_outcome.

(** C82.  With enough red galaxies near the colour of the centre (given, or that of the central galaxy, when that one
    is red) the cluster is measured: "not measured" is not returned. *)
Theorem C82_measured : forall fuel tol e o c cent r, o_err o = false ->
  (o_cent o = Some cent \/ (o_cent o = None /\ (forall y, central c y -> candidate o y /\ cn_col y = cent))) ->
  (0 < o_mingal o)%nat ->
  at_least (o_mingal o) (fun x => candidate o x /\ near_color o cent x) (k_nbs c) ->
  calc_richness_fit fuel tol e o c = Some r ->
  exists lam c', r = Ok (lam, c') /\ (lam = -1 \/ 1 <= lam < 2000).
Proof.
  intros fuel tol e o c cent r Herr Hc Hm Hal H. unfold calc_richness_fit in H. cbv zeta in H.
  assert (E : forall l, filter (in2sig o cent) (filter (guse o) l) = filter (fun x => guse o x && in2sig o cent x) l).
  { induction l as [|x l IH]; cbn; [reflexivity|]. destruct (guse o x); cbn; [destruct (in2sig o cent x); rewrite IH; reflexivity|exact IH]. }
  assert (Hne : k_nbs c <> []).
  { intros Hn. rewrite Hn in Hal. destruct Hal as ([|i idx] & _ & Hl & Hi); [cbn in Hl; lia|].
    destruct (Hi i (or_introl eq_refl)) as (x & Hx & _). destruct i; discriminate. }
  apply (at_least_iff _ (fun x => guse o x && in2sig o cent x)) in Hal.
  2:{ intros x. rewrite andb_true_iff, guse_iff, in2sig_iff. reflexivity. }
  rewrite <- E in Hal.
  assert (Hlen : forall (p : cnb -> bool) l, (List.length (filter p l) <= List.length l)%nat).
  { intros p l. induction l as [|x l IH]; cbn; [lia|]. destruct (p x); cbn; lia. }
  pose proof (Hlen (in2sig o cent) (filter (guse o) (k_nbs c))) as Hle.
  destruct (Nat.ltb_spec (List.length (filter (guse o) (k_nbs c))) (o_mingal o)) as [h|h]; [lia|].
  assert (Ec : (match o_cent o with
           | Some x => Ok (Some x)
           | None => do i <- argminR (map (fun x => n_r (cn x)) (k_nbs c));
                     match nth_error (k_nbs c) i with
                     | Some x => Ok (if guse o x then Some (cn_col x) else None)
                     | None => Err IndexError
                     end
           end) = Ok (Some cent)).
  { destruct Hc as [->|[-> Hc]]; [reflexivity|].
    destruct (argminR _) as [i|] eqn:Ea; [|destruct (k_nbs c); [congruence|discriminate]]. cbn [bind].
    destruct (argminR_spec _ _ Ea) as (v & Hv & Hmin). rewrite nth_error_map in Hv.
    destruct (nth_error (k_nbs c) i) as [y|] eqn:Ei; [|discriminate]. injection Hv as <-.
    destruct (Hc y) as [Hy1 Hy2].
    { split; [eapply nth_error_In, Ei|]. intros z Hz. apply Hmin, (in_map (fun x => n_r (cn x))), Hz. }
    apply guse_iff in Hy1. rewrite Hy1, Hy2. reflexivity. }
  rewrite Ec in H.
  destruct (Nat.ltb_spec (List.length (filter (in2sig o cent) (filter (guse o) (k_nbs c)))) (o_mingal o)) as [h2|h2]; [lia|].
  match type of H with option_map _ ?m = _ => destruct m as [s|] eqn:Es; [|discriminate] end.
  cbn [option_map] in H. injection H as <-. unfold fit_end. rewrite Herr.
  destruct (C16_range _ _ _ _ _ Es) as [[Hl _]|[Hl _]].
  - destruct (Rltb _ 0); eexists; eexists; (split; [reflexivity|]); left; exact Hl.
  - destruct (Rltb _ 0); eexists; eexists; (split; [reflexivity|]); right; exact Hl.
Qed.
Print Assumptions C82_measured.

(** C82.  A cluster that goes through has a positive richness, at least the required richness per scale value, and a
    central galaxy whose membership reaches the cut. *)
Theorem C82_kept : forall fuel tol e o c minlambda pcut pb c', fresh c -> 0 < pcut -> 0 < minlambda ->
  erf_ok e -> o_err o = false -> (forall good, Forall (phys (o_fit o good)) (k_nbs c)) ->
  process fuel tol e o minlambda pcut c = Some (Ok (false, pb, c')) ->
  1 <= k_lambda c' < 2000 /\
  (exists s, k_scale c' = SVal s /\ 0 < s /\ minlambda <= k_lambda c' / s) /\
  exists x, central c' x /\ n_pmem (cn x) = pb /\ pcut <= pb.
Proof.
  intros fuel tol e o c minlambda pcut pb c' Hfr Hp Hm He Herr Hph H. unfold process in H.
  destruct (calc_richness_fit fuel tol e o c) as [r|] eqn:Er; [|discriminate]. cbn [option_map] in H. injection H as H.
  destruct r as [[lam c1]|x]; cbn [bind] in H; [|discriminate].
  destruct (argminR _) as [i|] eqn:Ea; cbn [bind] in H; [|discriminate].
  destruct (nth_error (k_nbs c1) i) as [x|] eqn:Ei; [|discriminate].
  destruct (too_poor lam (k_scale c1) minlambda) eqn:Et; [discriminate|].
  destruct (Rltb (n_pmem (cn x)) pcut) eqn:Ep; [discriminate|]. injection H as <- <-. apply Rltb_false in Ep.
  pose proof (nth_error_In _ _ Ei) as Hin.
  destruct (argminR_spec _ _ Ea) as (v & Hv & Hmin). rewrite nth_error_map, Ei in Hv. injection Hv as <-.
  destruct (C82_outcome _ _ _ _ _ _ _ He Herr Hph Er) as [[-> Hn]|[(-> & _ & _ & Hz)|(Hl & Hk & _ & _ & Hs & Hi & _)]].
  - exfalso. rewrite Hn in Hin. rewrite (Hfr x Hin) in Ep. lra.
  - exfalso. destruct (Hz x Hin) as [Hz1 _]. rewrite Hz1 in Ep. lra.
  - rewrite Hk. split; [exact Hl|]. split.
    + unfold too_poor in Et. destruct (k_scale c1) as [s|].
      * exists s. split; [reflexivity|]. destruct (Hs s eq_refl) as [H0 _]. split; [exact H0|]. apply Rltb_false in Et. exact Et.
      * exfalso. apply Rltb_false in Et. lra.
    + exists x. split; [|split; [reflexivity|exact Ep]]. split; [exact Hin|]. intros y Hy. apply Hmin.
      apply (in_map (fun x => n_r (cn x))), Hy.
Qed.
Print Assumptions C82_kept.

(** C82.  A failed measurement of a cluster with freshly found neighbors is always rejected and marked. *)
Theorem C82_rejected : forall fuel tol e o c minlambda pcut lam c1, fresh c -> 0 < pcut -> k_nbs c <> [] ->
  calc_richness_fit fuel tol e o c = Some (Ok (lam, c1)) -> lam < 0 ->
  exists pb c', process fuel tol e o minlambda pcut c = Some (Ok (true, pb, c')) /\
    k_lambda c' = -1 /\ k_lambda_e c' = -1 /\ k_scale c' = SVal (-1).
Proof.
  intros fuel tol e o c minlambda pcut lam c1 Hfr Hp Hne H Hl.
  assert (Hz : k_nbs c1 <> [] /\ forall x, In x (k_nbs c1) -> n_pmem (cn x) = 0).
  { destruct (fit_cases _ _ _ _ _ _ H) as [(s & _ & [= -> ->])|[(x & [=] & _)|(f & s & Hs & Hr & good & Hf)]].
    - split; [exact Hne|exact Hfr].
    - unfold fit_end in Hr. destruct (Rltb (o_lam s) 0) eqn:E.
      + injection Hr as -> ->. cbn [k_nbs]. split; [destruct (k_nbs c); [congruence|discriminate]|apply zero_rows].
      + exfalso. apply Rltb_false in E. destruct (o_err o); [discriminate|]. injection Hr as -> ->. lra. }
  destruct Hz as [Hne1 Hz]. unfold process. rewrite H. cbn [option_map bind].
  destruct (argminR _) as [i|] eqn:Ea; [|destruct (k_nbs c1); [congruence|discriminate]]. cbn [bind].
  destruct (argminR_spec _ _ Ea) as (v & Hv & _). rewrite nth_error_map in Hv.
  destruct (nth_error (k_nbs c1) i) as [x|] eqn:Ei; [|discriminate].
  rewrite (Hz x (nth_error_In _ _ Ei)).
  assert (E : Rltb 0 pcut = true) by (apply Rltb_iff, Hp). rewrite E.
  destruct (too_poor _ _ _); eexists; eexists; (split; [reflexivity|]); repeat split.
Qed.
Print Assumptions C82_rejected.

(** Finding: the richness test does not do it alone.  "Not measured" is -10 with scale value -1, whose ratio is +10:
    with the default minimum of 10 (or less) and no cut on the central galaxy, a cluster with too few red galaxies
    goes through with whatever richness it had before. *)
Theorem C82_ratio_refuted : forall fuel tol e o c minlambda pcut, k_nbs c <> [] ->
  ~ at_least (o_mingal o) (candidate o) (k_nbs c) -> minlambda <= 10 ->
  fresh c -> pcut <= 0 ->
  exists pb c', process fuel tol e o minlambda pcut c = Some (Ok (false, pb, c')) /\ k_lambda c' = k_lambda c.
Proof.
  intros fuel tol e o c minlambda pcut Hne Hfew Hm Hfr Hp.
  assert (H : calc_richness_fit fuel tol e o c = Some (Ok (-10, set_scale c (SVal (-1))))).
  { unfold calc_richness_fit. cbv zeta.
    destruct (Nat.ltb_spec (List.length (filter (guse o) (k_nbs c))) (o_mingal o)) as [h|h]; [reflexivity|].
    exfalso. apply Hfew. apply (at_least_iff _ (guse o)); [apply guse_iff|exact h]. }
  unfold process. rewrite H. cbn [option_map bind]. cbn [set_scale k_nbs k_scale].
  destruct (argminR _) as [i|] eqn:Ea; [|destruct (k_nbs c); [congruence|discriminate]]. cbn [bind].
  destruct (argminR_spec _ _ Ea) as (v & Hv & _). rewrite nth_error_map in Hv.
  destruct (nth_error (k_nbs c) i) as [x|] eqn:Ei; [|discriminate]. rewrite (Hfr x (nth_error_In _ _ Ei)).
  assert (E1 : too_poor (-10) (SVal (-1)) minlambda = false) by (apply Rltb_false; replace (-10 / -1) with 10 by field; exact Hm).
  assert (E2 : Rltb 0 pcut = false) by (apply Rltb_false; exact Hp). rewrite E1, E2.
  eexists; eexists; split; reflexivity.
Qed.
Print Assumptions C82_ratio_refuted.

(** Finding: asking for the error never returns a richness: a successful measurement raises NameError. *)
Theorem C82_error_refuted : forall fuel tol e o c r, o_err o = true ->
  calc_richness_fit fuel tol e o c = Some r ->
  (exists lam c', r = Ok (lam, c') /\ lam < 0) \/ (r = Err NameError) \/ (k_nbs c = []).
Proof.
  intros fuel tol e o c r He H.
  destruct (fit_cases _ _ _ _ _ _ H) as [(s & _ & ->)|[(x & _ & Hn)|(f & s & Hs & -> & _)]].
  - left. eexists; eexists. split; [reflexivity|lra].
  - right; right. exact Hn.
  - unfold fit_end. rewrite He. destruct (Rltb (o_lam s) 0) eqn:E.
    + left. apply Rltb_iff in E. eexists; eexists. split; [reflexivity|exact E].
    + right; left. reflexivity.
Qed.
Print Assumptions C82_error_refuted.

(** Finding: when the central galaxy is outside the colour range the scale value of an earlier measurement stays. *)
Theorem C82_stale_scale_refuted : forall fuel tol e o c x, o_cent o = None ->
  at_least (o_mingal o) (candidate o) (k_nbs c) -> central c x ->
  (forall y, central c y -> ~ candidate o y) ->
  calc_richness_fit fuel tol e o c = Some (Ok (-10, c)).
Proof.
  intros fuel tol e o c x Hc Hal Hx Hno. unfold calc_richness_fit. cbv zeta.
  destruct (Nat.ltb_spec (List.length (filter (guse o) (k_nbs c))) (o_mingal o)) as [h|h].
  { apply (at_least_iff _ (guse o)) in Hal; [lia|apply guse_iff]. }
  rewrite Hc. destruct (argminR _) as [i|] eqn:Ea.
  2:{ destruct Hx as [Hx _]. destruct (k_nbs c); [contradiction|discriminate]. }
  cbn [bind]. destruct (argminR_spec _ _ Ea) as (v & Hv & Hmin). rewrite nth_error_map in Hv.
  destruct (nth_error (k_nbs c) i) as [y|] eqn:Ei; [|discriminate]. injection Hv as <-.
  destruct (guse o y) eqn:Eg; [|reflexivity]. exfalso. apply (Hno y); [|apply guse_iff, Eg].
  split; [eapply nth_error_In, Ei|]. intros z Hz. apply Hmin, (in_map (fun x => n_r (cn x))), Hz.
Qed.
Print Assumptions C82_stale_scale_refuted.

(** cases that meet the hypotheses *)
Definition ex_nb (r mag col : R) : cnb := mkCN (mkNB r mag (1/100) 1 0 0 0 0 0) col (1/10).
Definition ex_o : fopt := mkFO 10 20 (1/2) 0 3 2 (1/20) None false
  (fun _ => mkF (fun _ => 1) (fun _ => 1) (fun _ => Bval 1) 20 22).
Definition ex_c : cluster := mkCl 0 0 0 (SVal 7) [ex_nb (1/10) 15 9; ex_nb (1/5) 15 1; ex_nb (3/10) 16 1].
Example C82_fresh : fresh ex_c /\ (forall good, Forall (phys (o_fit ex_o good)) (k_nbs ex_c)).
Proof.
  split.
  - intros x Hx. cbn in Hx. destruct Hx as [<-|[<-|[<-|[]]]]; reflexivity.
  - intros good. apply Forall_forall. intros x Hx. cbn in Hx.
    destruct Hx as [<-|[<-|[<-|[]]]]; unfold phys; cbn; (repeat split; try lra); intros b [= <-]; lra.
Qed.
Example C82_central : at_least 2 (candidate ex_o) (k_nbs ex_c) /\ central ex_c (ex_nb (1/10) 15 9) /\
  (forall y, central ex_c y -> ~ candidate ex_o y).
Proof.
  split; [|split].
  - exists [1%nat; 2%nat]. split; [repeat constructor; cbn; intuition discriminate|]. split; [reflexivity|].
    intros i [<-|[<-|[]]]; eexists; (split; [reflexivity|]); unfold candidate; cbn; lra.
  - split; [left; reflexivity|]. intros y Hy. cbn in Hy. destruct Hy as [<-|[<-|[<-|[]]]]; cbn; lra.
  - intros y [Hy Hmin] Hcand. specialize (Hmin (ex_nb (1/10) 15 9) (or_introl eq_refl)). cbn in Hy, Hmin.
    destruct Hy as [<-|[<-|[<-|[]]]]; cbn in Hmin; [|lra|lra]. unfold candidate in Hcand. cbn in Hcand. lra.
Qed.
Example C82_few : ~ at_least 4 (candidate ex_o) (k_nbs ex_c).
Proof.
  intros (idx & Hnd & Hl & H).
  assert (incl idx [0%nat; 1%nat; 2%nat]).
  { intros i Hi. destruct (H i Hi) as (x & Hx & _). destruct i as [|[|[|i]]]; cbn; auto. cbn in Hx. destruct i; discriminate. }
  pose proof (NoDup_incl_length Hnd H0). cbn in H1. lia.
Qed.
