(** C127, C128: the fit of the redMaGiC cuts and of the afterburner. *)
From Coq Require Import String Reals Lra.
From Verif.Base Require Import Py PyLemmas.
From Verif.Model Require Import BkgGen Depth RedFit.
From Verif.Model Require Redmagic.
From Verif.Spec Require Import RedFit.
From Verif.Spec Require Redmagic.
From Verif.Proofs Require Import BkgGen Solver Depth RedFit.
From Verif.Proofs Require Redmagic.
From Coq Require Import Lia List. Import ListNotations.
Local Open Scope R_scope.

(** * C127 *)
(** C127, for galaxies inside of the nodes and samples that are corrected too: the samples the cost was computed from, at the recorded
    cuts and corrections, are the samples of the galaxies the selection returns, one by one. *)
Theorem C127_same_partial : forall L k splfix r z0 z1 zc buf lc run apply vlim src zcal all,
  let m := mode_of splfix k r z0 z1 zc buf lc run apply vlim in
  agrees (l_spl L) splfix -> Redmagic.source_ok src -> (run = true -> apply = true) ->
  (forall g, In g all -> inside (k_nodes k) (Redmagic.g_zunc g) /\ inside (k_corr k) (Redmagic.g_zunc g) /\ z0 - zc - buf < Redmagic.g_zunc g < z1 + zc + buf /\
                         Redmagic.g_chisq g < k_maxchi k /\ Redmagic.g_samp g <> []) ->
  exists out gd, Redmagic.select_mode (k_mstar k) src m all = Ok (out, gd) /\
    map (fun row => hd 0 (Redmagic.r_samp row)) out =
    counted L k (r_cmax r) (if run then Some (r_bias r, r_eratio r) else None) (map (seen m zcal) (filter (bright (k_mstar k) (k_etamin k) lc) all)).
Proof.
  intros L k splfix r z0 z1 zc buf lc run apply vlim src zcal all m Ha Hs Hr Hg.
  destruct (Redmagic.select_form (k_mstar k) src m all Hs) as (zs & E & Hl & _). eexists _, _. split; [exact E|].
  rewrite map_map. unfold Redmagic.mkrow. cbn [Redmagic.r_samp]. rewrite (map_fst_combine (fun g => hd 0 (Redmagic.zredmagic_samp m g))) by exact Hl. clear zs E Hl.
  unfold counted. induction all as [|g l IH]; [reflexivity|].
  assert (IH' := IH (fun g' H => Hg g' (or_intror H))). clear IH. destruct (Hg g (or_introl eq_refl)) as (I1 & I2 & I3 & I4 & I5). clear Hg.
  cbn [filter]. unfold bright at 1. unfold Redmagic.passes at 1. unfold Redmagic.red_poss.
  set (B := Rltb (Redmagic.g_refmag g) (k_mstar k (Redmagic.g_zunc g) - 25/10 * log10 (Redmagic.min_lstar m))).
  change (Rltb (Redmagic.g_refmag g) (k_mstar k (Redmagic.g_zunc g) - 25 / 10 * log10 (Rmax (1 / 10) (k_etamin k - lc)))) with B.
  assert (T1 : Rltb (Redmagic.m_z0 m - Redmagic.m_zcush m - Redmagic.m_buf m) (Redmagic.g_zunc g) = true) by (apply Rltb_iff; cbn; lra).
  assert (T2 : Rltb (Redmagic.g_zunc g) (Redmagic.m_z1 m + Redmagic.m_zcush m + Redmagic.m_buf m) = true) by (apply Rltb_iff; cbn; lra).
  assert (T3 : Rltb (Redmagic.g_chisq g) (Redmagic.m_maxchi m) = true) by (apply Rltb_iff; cbn; lra).
  rewrite T1, T2, T3. cbn [andb].
  assert (Ez : Redmagic.zredmagic m g = f_z (seen m zcal g) - match (if run then Some (r_bias r, r_eratio r) else None) with Some (b, _) => l_spl L (k_corr k) b (f_z (seen m zcal g)) | None => 0 end).
  { unfold Redmagic.zredmagic. cbn [m mode_of Redmagic.m_run Redmagic.m_bias seen f_z]. destruct run; [rewrite (Ha _ _ _ I2); reflexivity|ring]. }
  assert (Ec : Redmagic.chi2max m g = Rmin (Rmax (l_spl L (k_nodes k) (r_cmax r) (f_z (seen m zcal g))) (1 / 10)) (k_maxchi k)).
  { unfold Redmagic.chi2max. cbn [m mode_of Redmagic.m_cmax Redmagic.m_maxchi seen f_z]. rewrite (Ha _ _ _ I1). reflexivity. }
  rewrite Ez, Ec. destruct B; cbn [map filter].
  - rewrite andb_true_r. change (f_chisq (seen m zcal g)) with (Redmagic.g_chisq g). change (f_mag (seen m zcal g)) with (Redmagic.g_refmag g).
    change (f_zmax (seen m zcal g)) with (Redmagic.zmax_at m (Redmagic.g_ra g) (Redmagic.g_dec g)). change (Redmagic.m_etamin m) with (k_etamin k).
    match goal with |- context [if ?c then g :: _ else _] => destruct c end; cbn [map]; [|exact IH'].
    f_equal; [|exact IH']. unfold Redmagic.zredmagic_samp. cbn [m mode_of Redmagic.m_run Redmagic.m_apply Redmagic.m_bias seen f_samp f_z].
    destruct run; [rewrite (Hr eq_refl)|]; cbn [andb]; destruct (Redmagic.g_samp g) as [|s t]; try congruence; cbn [map hd]; [rewrite (Ha _ _ _ I2); reflexivity|ring].
  - rewrite andb_false_r. exact IH'.
Qed.
Print Assumptions C127_same_partial.
(** Finding: the fit always corrects the samples it counts, although the selection corrects them only if told so (the setting is given to
    the fit and not looked at): the density that was calibrated is not that of the samples in the catalog. *)
Theorem C127_samples_refuted : forall L k splfix r z0 z1 zc buf lc vlim src g,
  let m := mode_of splfix k r z0 z1 zc buf lc true false vlim in
  agrees (l_spl L) splfix -> Redmagic.source_ok src -> inside (k_corr k) (Redmagic.g_zunc g) -> Redmagic.g_samp g <> [] ->
  l_spl L (k_corr k) (r_bias r) (Redmagic.g_zunc g) <> 0 ->
  forall out gd, Redmagic.select_mode (k_mstar k) src m [g] = Ok (out, gd) ->
  forall s row, In s (counted L k (r_cmax r) (Some (r_bias r, r_eratio r)) [seen m 0 g]) -> In row out -> hd 0 (Redmagic.r_samp row) <> s.
Proof.
  intros L k splfix r z0 z1 zc buf lc vlim src g m Ha Hs Hi Hg Hb out gd E s row S Hrow.
  destruct (Redmagic.select_form (k_mstar k) src m [g] Hs) as (zs & E' & Hl & _). rewrite E' in E. assert (Eo : out = map (Redmagic.mkrow (k_mstar k) m) (combine (filter (Redmagic.passes (k_mstar k) m) [g]) zs)) by congruence. clear E. subst out.
  apply in_map_iff in Hrow. destruct Hrow as ((g' & z') & <- & Hin). apply in_combine_l in Hin. apply filter_In in Hin. destruct Hin as [[<-|[]] _].
  unfold Redmagic.mkrow. cbn [Redmagic.r_samp fst]. unfold Redmagic.zredmagic_samp. cbn [m mode_of Redmagic.m_run Redmagic.m_apply andb].
  unfold counted in S. apply in_map_iff in S. destruct S as (f & <- & F). apply filter_In in F. destruct F as [[<-|[]] _]. cbn [seen f_samp f_z]. lra.
Qed.
Print Assumptions C127_samples_refuted.
(** Finding: the cuts are fitted with splines that go on beyond the last node and selected with splines that do not: wherever the two
    differ there are galaxies that the fit counts and the selection drops, or the other way. *)
Theorem C127_outside_refuted : forall L k splfix cval z, k_maxchi k > 1 -> 1/10 < splfix (k_nodes k) cval z < k_maxchi k -> 1/10 < l_spl L (k_nodes k) cval z < k_maxchi k ->
  splfix (k_nodes k) cval z <> l_spl L (k_nodes k) cval z ->
  exists chisq, forall m g, Redmagic.m_cmax m = splfix (k_nodes k) cval -> Redmagic.m_maxchi m = k_maxchi k -> Redmagic.g_zunc g = z -> Redmagic.g_chisq g = chisq ->
    (Rltb (Redmagic.g_chisq g) (Redmagic.chi2max m g) = negb (Rltb (f_chisq (seen m 0 g)) (chicut L k cval (seen m 0 g)))).
Proof.
  intros L k splfix cval z Hm H1 H2 Hn. set (a := splfix (k_nodes k) cval z) in *. set (b := l_spl L (k_nodes k) cval z) in *.
  exists (Rmin a b). intros m g Ec Em Ez Eg. unfold Redmagic.chi2max, chicut. cbn [seen f_chisq f_z]. rewrite Ec, Em, Ez, Eg. fold a b.
  rewrite !Rmax_left by lra. rewrite !Rmin_left with (y := k_maxchi k) by lra. unfold Rmin. destruct (Rle_dec a b).
  - assert (F : Rltb a b = true) by (apply Rltb_iff; lra). rewrite F. apply Rltb_false. lra.
  - assert (F : Rltb b b = false) by (apply Rltb_false; lra). rewrite F. apply Rltb_iff. lra.
Qed.
Print Assumptions C127_outside_refuted.
(** C127: the cost is computed from the galaxies that pass the cuts: all that matters of them are their samples. *)
Theorem C127_cost : forall L k gals pars, (counted L k pars None gals <> [] -> call L k gals (map (raw k) gals) pars =
    l_bins L (counted L k pars None gals) + (if existsb (fun p => Rltb p (1/10)) pars then 10000 else 0)) /\
  (forall b e, counted L k pars (Some (b, e)) gals <> [] -> call L k gals (map (burned L k b e) gals) pars =
    l_bins L (counted L k pars (Some (b, e)) gals) + (if existsb (fun p => Rltb p (1/10)) pars then 10000 else 0)) /\
  (counted L k pars None gals = [] -> call L k gals (map (raw k) gals) pars = 100000000000).
Proof.
  intros L k gals pars. repeat split.
  - intros H. rewrite (call_counted _ _ _ _ None _ (counted_raw L k pars gals)). destruct (counted _ _ _ _ _); [congruence|reflexivity].
  - intros b e H. rewrite (call_counted _ _ _ _ (Some (b, e)) _ (counted_burned L k pars b e gals)). destruct (counted _ _ _ _ _); [congruence|reflexivity].
  - intros H. rewrite (call_counted _ _ _ _ None _ (counted_raw L k pars gals)), H. reflexivity.
Qed.
Print Assumptions C127_cost.

(** * C128 *)
(** C128: without the afterburner the redshifts are left as they are; the cuts are fitted on raw redshifts, or are the constant. *)
Theorem C128_off : forall L k gals const start, exists r, calibrate L k gals const start false = Ok r /\
  r_bias r = map (fun _ => 0) (k_corr k) /\ r_eratio r = map (fun _ => 1) (k_corr k) /\
  r_cmax r = match const with Some c => map (fun _ => c) (k_nodes k) | None => l_fmin L (call L k gals (map (raw k) gals)) start end.
Proof. intros L k gals [c|] start; eexists; (split; [reflexivity|]); cbn; auto. Qed.
Print Assumptions C128_off.
(** what it takes for the training galaxies to be rows of the fit *)
Definition trains (k : fconf) (gals : list fgal) (train : list nat) : Prop := k_train k = Some train /\ forall i, In i train -> (i < List.length gals)%nat.
Lemma take_ok {A} (l : list A) idx : (forall i, In i idx -> (i < List.length l)%nat) -> exists v, np_take l idx = Ok v.
Proof.
  induction idx as [|i idx IH]; intros H; [exists []; reflexivity|]. destruct IH as [v E]; [intros; apply H; right; assumption|].
  cbn [np_take]. destruct (nth_error l i) as [x|] eqn:N; [rewrite E; cbn; eexists; reflexivity|]. apply nth_error_None in N. specialize (H i (or_introl eq_refl)). lia.
Qed.
Lemma fbe_ok L k gals st cval b e train : trains k gals train -> List.length st = List.length gals -> exists be, fit_bias_eratio L k gals st cval b e = Ok be.
Proof.
  intros [T1 T2] Hl. unfold fit_bias_eratio. rewrite T1. destruct (take_ok (combine gals st) train) as [v E]; [intros i Hi; rewrite combine_length, Hl, Nat.min_id; apply T2, Hi|]. rewrite E. cbn. eexists. reflexivity.
Qed.
Lemma iterate_last L k gals train n : trains k gals train -> forall s, List.length (fst (fst s)) = List.length gals -> exists st cval be,
  iterate L k gals n s = Ok (st, cval, be) /\ List.length st = List.length gals /\ (n = 0%nat \/ st = map (burned L k (fst be) (snd be)) gals /\ exists p, cval = l_fmin L (call L k gals st) p).
Proof.
  intros T. induction n as [|n IH]; intros [[st cval] [b e]] Hl; [exists st, cval, (b, e); auto|]. cbn [fst] in Hl.
  destruct (fbe_ok L k gals st cval b e train T Hl) as [[b' e'] E]. cbn [iterate]. rewrite E. cbn [bind]. unfold fit. destruct T as [T1 T2]. rewrite T1. cbn [bind fst snd].
  set (st' := map (burned L k b' e') gals). destruct (IH (st', l_fmin L (call L k gals st') cval, (b', e'))) as (st2 & cv2 & be2 & E2 & L2 & D); [apply map_length|].
  exists st2, cv2, be2. split; [exact E2|]. split; [exact L2|]. right. destruct D as [->|D]; [|exact D]. cbn [iterate] in E2. injection E2 as <- <- <-. split; [reflexivity|]. exists cval. reflexivity.
Qed.
(** C128, with the afterburner and fitted cuts: the cuts are those fitted with some corrections, and the corrections recorded are fitted
    on the training galaxies that pass these cuts with these corrections; it never fails. *)
Theorem C128_afterburner_partial : forall L k gals start train, trains k gals train ->
  exists r b e p, calibrate L k gals None start true = Ok r /\ let st := map (burned L k b e) gals in
    r_cmax r = l_fmin L (call L k gals st) p /\ fit_bias_eratio L k gals st (r_cmax r) b e = Ok (r_bias r, r_eratio r).
Proof.
  intros L k gals start train T. unfold calibrate. cbn [fit bind].
  destruct (iterate_last L k gals train 5 T (map (raw k) gals, l_fmin L (call L k gals (map (raw k) gals)) start, (map (fun _ => 0) (k_corr k), map (fun _ => 1) (k_corr k)))) as (st & cv & [b e] & E & Hl & [D|(D & p & P)]); [apply map_length|discriminate|].
  rewrite E. cbn [bind]. destruct (fbe_ok L k gals st cv b e train T Hl) as [[b' e'] F]. rewrite F. cbn [bind fst snd] in *.
  exists (mkRec cv b' e'), b, e, p. split; [reflexivity|]. cbn [r_cmax r_bias r_eratio]. rewrite <- D. auto.
Qed.
Print Assumptions C128_afterburner_partial.
(** the same for a constant cut: it is recorded as it is, and the corrections are fitted at the raw redshifts *)
Theorem C128_constant : forall L k gals c start train, trains k gals train ->
  exists r, calibrate L k gals (Some c) start true = Ok r /\ r_cmax r = map (fun _ => c) (k_nodes k) /\
    fit_bias_eratio L k gals (map (raw k) gals) (r_cmax r) (map (fun _ => 0) (k_corr k)) (map (fun _ => 1) (k_corr k)) = Ok (r_bias r, r_eratio r).
Proof.
  intros L k gals c start train T. unfold calibrate. cbn [bind]. destruct (fbe_ok L k gals (map (raw k) gals) (map (fun _ => c) (k_nodes k)) (map (fun _ => 0) (k_corr k)) (map (fun _ => 1) (k_corr k)) train T) as [[b e] E]; [apply map_length|].
  rewrite E. cbn [bind]. eexists. split; [reflexivity|]. cbn. auto.
Qed.
Print Assumptions C128_constant.
(** C128: the training galaxies that pass the cuts, and no others, make the corrections: the bias is fitted to raw minus calibration
    redshift, the scale of the errors to what is left of it, in units of the error and of a normal distribution. *)
Theorem C128_training : forall L k gals st cval b e train bias eratio, k_train k = Some train -> List.length st = List.length gals ->
  fit_bias_eratio L k gals st cval b e = Ok (bias, eratio) ->
  exists gd, (forall g, In g gd <-> exists i s, In i train /\ nth_error gals i = Some g /\ nth_error st i = Some s /\
                f_chisq g < k_maxchi k /\ (f_chisq g < l_spl L (k_nodes k) cval (f_z g) \/ f_chisq g < 1/10) /\
                f_mag g < s_mstar s - 25/10 * log10 (k_etamin k) /\ s_z s < f_zmax g) /\
    bias = l_med L (k_corr k) (map f_z gd) (map (fun g => f_z g - f_zcal g) gd) b (- (1/10)) (1/10) /\
    eratio = l_med L (k_corr k) (map f_z gd) (map (fun g => 14826/10000 * Rabs (f_z g - f_zcal g - l_spl L (k_corr k) bias (f_z g)) / f_e g) gd) e (1/2) (3/2).
Proof.
  intros L k gals st cval b e train bias eratio T Hl E. unfold fit_bias_eratio in E. rewrite T in E. destruct (np_take (combine gals st) train) as [sel|] eqn:N; [|discriminate]. cbn [bind] in E. injection E as <- <-.
  exists (map fst (filter (fkept L k cval) sel)). split; [|split; reflexivity].
  assert (M : forall gs, In gs sel <-> exists i, In i train /\ nth_error (combine gals st) i = Some gs).
  { clear - N. revert sel N. induction train as [|j t IH]; intros sel N; cbn [np_take] in N; [injection N as <-; split; [intros []|intros (i & [] & _)]|].
    destruct (nth_error (combine gals st) j) as [x|] eqn:X; [|discriminate]. destruct (np_take (combine gals st) t) as [v|]; [|discriminate]. injection N as <-.
    intros gs. cbn [In]. rewrite (IH v eq_refl). split.
    - intros [<-|(i & Hi & Ei)]; [exists j; auto|exists i; auto].
    - intros (i & [<-|Hi] & Ei); [left; congruence|right; exists i; auto]. }
  assert (C : forall i g s, nth_error (combine gals st) i = Some (g, s) <-> nth_error gals i = Some g /\ nth_error st i = Some s).
  { clear. revert st. induction gals as [|g' l IH]; intros st i g s; [split; [destruct i; discriminate|intros [H _]; destruct i; discriminate]|].
    destruct st as [|s' st]; [split; [destruct i; discriminate|intros [_ H]; destruct i; discriminate]|].
    destruct i as [|i]; cbn; [split; [intros [= -> ->]; auto|intros [[= ->] [= ->]]; reflexivity]|apply IH]. }
  intros g. rewrite in_map_iff. split.
  - intros ((g' & s) & <- & Hf). apply filter_In in Hf. destruct Hf as [Hin Hk]. apply M in Hin. destruct Hin as (i & Hi & Ei). apply C in Ei. destruct Ei as [E1 E2]. exists i, s.
    unfold fkept, chicut in Hk. cbn [fst snd] in *. rewrite !andb_true_iff, !Rltb_iff in Hk. destruct Hk as [[K1 K2] K3].
    pose proof (Rmin_l (Rmax (l_spl L (k_nodes k) cval (f_z g')) (1/10)) (k_maxchi k)). pose proof (Rmin_r (Rmax (l_spl L (k_nodes k) cval (f_z g')) (1/10)) (k_maxchi k)).
    split; [exact Hi|]. split; [exact E1|]. split; [exact E2|]. split; [lra|]. split; [|split; assumption]. unfold Rmax in *. destruct (Rle_dec (l_spl L (k_nodes k) cval (f_z g')) (1/10)); [right|left]; lra.
  - intros (i & s & Hi & E1 & E2 & K1 & K2 & K3 & K4). exists (g, s). split; [reflexivity|]. apply filter_In. split; [apply M; exists i; split; [exact Hi|apply C; auto]|].
    unfold fkept, chicut. cbn [fst snd]. rewrite !andb_true_iff, !Rltb_iff. split; [split; [|exact K3]|exact K4]. apply Rmin_glb_lt; [|exact K1].
    destruct K2 as [K|K]; [eapply Rlt_le_trans; [exact K|apply Rmax_l]|eapply Rlt_le_trans; [exact K|apply Rmax_r]].
Qed.
Print Assumptions C128_training.
(** C128: corrections are within their limits if the minimizer keeps to its bounds. *)
Theorem C128_bounds : forall L k gals const start run train r,
  (forall nodes z y p lo hi v, In v (l_med L nodes z y p lo hi) -> lo <= v <= hi) -> trains k gals train ->
  calibrate L k gals const start run = Ok r -> (forall v, In v (r_bias r) -> Rabs v <= 1/10) /\ (forall v, In v (r_eratio r) -> 1/2 <= v <= 3/2).
Proof.
  intros L k gals const start run train r Hm T E.
  assert (F : forall st cval b e bias eratio, fit_bias_eratio L k gals st cval b e = Ok (bias, eratio) -> (forall v, In v bias -> Rabs v <= 1/10) /\ (forall v, In v eratio -> 1/2 <= v <= 3/2)).
  { intros st cval b e bias eratio G. unfold fit_bias_eratio in G. destruct (k_train k); [|discriminate]. destruct (np_take _ _); [|discriminate]. cbn [bind] in G. injection G as <- <-.
    split; intros v Hv; apply Hm in Hv; [apply Rabs_le; lra|lra]. }
  destruct run.
  - destruct const as [c|].
    + destruct (C128_constant L k gals c start train T) as (r' & E' & _ & G). rewrite E' in E. injection E as ->. eapply F, G.
    + destruct (C128_afterburner_partial L k gals start train T) as (r' & b & e & p & E' & _ & G). rewrite E' in E. injection E as ->. eapply F, G.
  - destruct (C128_off L k gals const start) as (r' & E' & B1 & B2 & _). rewrite E' in E. injection E as ->. rewrite B1, B2.
    split; intros v Hv; apply in_map_iff in Hv; destruct Hv as (? & <- & _); [rewrite Rabs_R0|]; lra.
Qed.
Print Assumptions C128_bounds.

(** ** the recorded corrections are not those the cuts were fitted with *)
Definition halfway : libs := mkL (fun _ v _ => hd 0 v) (fun cost _ => [5 + cost [5]])
  (fun _ _ y p _ _ => match y, p with y0 :: _, p0 :: _ => [(y0 + p0) / 2] | _, _ => p end) (fun s => hd 0 s).
Definition one_gal : list fgal := [mkFG (3/10) (1/100) 0 15 (25/100) (3/10) 10].
Definition one_conf : fconf := mkFC [0] [0] 1 20 (fun _ => 20) (Some [0%nat]).
Lemma one_kept cv zm e sm : 1 <= cv -> zm < 10 -> fkept halfway one_conf [cv] (mkFG (3/10) (1/100) 0 15 (25/100) (3/10) 10, mkSG zm e sm 20) = true.
Proof.
  intros H1 H2. unfold fkept, chicut. cbn [fst snd f_chisq f_z f_mag s_mstar s_z f_zmax one_conf k_etamin k_maxchi k_nodes halfway l_spl hd].
  rewrite !andb_true_iff, !Rltb_iff. assert (E : log10 1 = 0) by (unfold log10; rewrite ln_1; lra). rewrite E.
  split; [split; [|lra]|exact H2]. apply Rmin_glb_lt; [|lra]. eapply Rlt_le_trans; [|apply Rmax_l]. lra.
Qed.
Lemma one_call b e : 0 <= b -> call halfway one_conf one_gal (map (burned halfway one_conf [b] e) one_gal) [5] = 3/10 - b.
Proof.
  intros H. unfold call, one_gal. cbn [map combine filter]. unfold burned. cbn [f_z f_e f_samp halfway l_spl hd k_corr one_conf k_mstar].
  rewrite one_kept by lra. cbn [map snd s_samp hd existsb]. assert (F : Rltb 5 (1/10) = false) by (apply Rltb_false; lra). rewrite F. cbn. lra.
Qed.
Lemma one_fbe zm es sm cv b e : 1 <= cv -> zm < 10 -> exists e', fit_bias_eratio halfway one_conf one_gal [mkSG zm es sm 20] [cv] [b] e = Ok ([(3/10 - 25/100 + b) / 2], e').
Proof.
  intros H1 H2. unfold fit_bias_eratio. cbn [k_train one_conf one_gal combine np_take nth_error bind filter]. rewrite one_kept by assumption.
  cbn [map fst halfway l_med f_z f_zcal]. eexists. reflexivity.
Qed.
Lemma one_iter n : forall zm es sm cv b e, 1 <= cv -> zm < 10 -> 0 <= b <= 5/100 -> exists es' e', let b' := 5/100 - (5/100 - b) / 2 ^ S n in
  iterate halfway one_conf one_gal (S n) ([mkSG zm es sm 20], [cv], ([b], e)) = Ok ([mkSG (3/10 - b') es' (3/10 - b') 20], [5 + (3/10 - b')], ([b'], e')).
Proof.
  induction n as [|n IH]; intros zm es sm cv b e H1 H2 H3.
  - destruct (one_fbe zm es sm cv b e H1 H2) as [e' E]. exists (1/100 * hd 0 e'), e'. cbv zeta. cbn [iterate]. rewrite E. cbn [bind].
    replace ((3/10 - 25/100 + b) / 2) with (5/100 - (5/100 - b) / 2 ^ 1) by (cbn; lra). set (b' := 5/100 - (5/100 - b) / 2 ^ 1). unfold fit. cbn [one_conf k_train bind fst snd]. fold one_conf.
    change (l_fmin halfway (call halfway one_conf one_gal (map (burned halfway one_conf [b'] e') one_gal)) [cv]) with [5 + call halfway one_conf one_gal (map (burned halfway one_conf [b'] e') one_gal) [5]].
    rewrite one_call by (subst b'; cbn; lra). reflexivity.
  - destruct (one_fbe zm es sm cv b e H1 H2) as [e1 E]. set (b1 := (3/10 - 25/100 + b) / 2) in E.
    assert (B : 0 <= b1 <= 5/100) by (subst b1; lra).
    destruct (IH (3/10 - b1) (1/100 * hd 0 e1) (3/10 - b1) (5 + (3/10 - b1)) b1 e1) as (es' & e' & F); [lra|lra|exact B|]. exists es', e'. cbv zeta in *.
    replace ((5/100 - b) / 2 ^ S (S n)) with ((5/100 - b1) / 2 ^ S n) by (subst b1; change (2 ^ S (S n)) with (2 * 2 ^ S n); assert (0 < 2 ^ S n) by (apply pow_lt; lra); field; lra).
    rewrite <- F. set (m := S n). cbn [iterate]. rewrite E. cbn [bind]. unfold fit. cbn [one_conf k_train bind fst snd]. fold one_conf.
    change (l_fmin halfway (call halfway one_conf one_gal (map (burned halfway one_conf [b1] e1) one_gal)) [cv]) with [5 + call halfway one_conf one_gal (map (burned halfway one_conf [b1] e1) one_gal) [5]].
    rewrite one_call by lra. reflexivity.
Qed.
(** Finding: the corrections are fitted once more after the last fit of the cuts, and it is these that are recorded: unless the
    iterations have come to rest (they are always five), the recorded cuts are not those for the recorded corrections. *)
Theorem C128_last_refuted : exists L k gals start train r, trains k gals train /\ calibrate L k gals None start true = Ok r /\
  forall p, r_cmax r <> l_fmin L (call L k gals (map (burned L k (r_bias r) (r_eratio r)) gals)) p.
Proof.
  assert (C0 : call halfway one_conf one_gal (map (raw one_conf) one_gal) [5] = 3/10).
  { unfold call. change (combine one_gal (map (raw one_conf) one_gal)) with [(mkFG (3/10) (1/100) 0 15 (25/100) (3/10) 10, mkSG (3/10) (1/100) (3/10) 20)]. cbn [filter]. rewrite one_kept by lra.
    cbn [map snd s_samp hd existsb halfway l_bins]. assert (F : Rltb 5 (1/10) = false) by (apply Rltb_false; lra). rewrite F. cbn. lra. }
  destruct (one_iter 4 (3/10) (1/100) (3/10) (5 + 3/10) 0 [1]) as (es & e & I); [lra..|].
  set (b := 5/100 - (5/100 - 0) / 2 ^ 5) in I.
  assert (B : b = 5/100 * (31/32)) by (subst b; cbn; lra). clearbody b.
  destruct (one_fbe (3/10 - b) es (3/10 - b) (5 + (3/10 - b)) b e) as [e' E]; [lra..|].
  exists halfway, one_conf, one_gal, [1], [0%nat], (mkRec [5 + (3/10 - b)] [(3/10 - 25/100 + b) / 2] e').
  split; [split; [reflexivity|intros i [<-|[]]; cbn; lia]|]. split.
  - unfold calibrate. cbn [fit bind]. change (l_fmin halfway (call halfway one_conf one_gal (map (raw one_conf) one_gal)) [1]) with [5 + call halfway one_conf one_gal (map (raw one_conf) one_gal) [5]].
    rewrite C0. change (map (raw one_conf) one_gal) with [mkSG (3/10) (1/100) (3/10) 20]. change (map (fun _ : R => 0) (k_corr one_conf)) with [0]. change (map (fun _ : R => 1) (k_corr one_conf)) with [1].
    rewrite I. cbn [bind]. rewrite E. reflexivity.
  - intros p H. cbn [r_cmax r_bias r_eratio] in H.
    change (l_fmin halfway (call halfway one_conf one_gal (map (burned halfway one_conf [(3/10 - 25/100 + b) / 2] e') one_gal)) p) with [5 + call halfway one_conf one_gal (map (burned halfway one_conf [(3/10 - 25/100 + b) / 2] e') one_gal) [5]] in H.
    rewrite one_call in H by lra. injection H as H. lra.
Qed.
Print Assumptions C128_last_refuted.

(** C128: the calibration redshift of a galaxy is that of a cluster it is a member of, with more than the wanted probability; without
    one it has none and is no training galaxy. *)
Theorem C128_labels_partial : forall cat pcut mems id z e, zcal_of cat pcut mems id = (z, e) ->
  (exists m, In m mems /\ m_id m = id /\ pcut < m_p m /\ z = m_z m) \/ ((forall m, In m mems -> m_id m = id -> m_p m <= pcut) /\ z = -1).
Proof.
  intros cat pcut mems id z e E. unfold zcal_of in E. set (l := filter (fun m => (m_id m =? id)%Z) (filter (fun m => Rltb pcut (m_p m)) mems)) in E.
  assert (H : forall m, In m l <-> In m mems /\ m_id m = id /\ pcut < m_p m) by (intros m; unfold l; rewrite !filter_In, Rltb_iff, Z.eqb_eq; tauto).
  destruct (rev l) as [|m t] eqn:R.
  - right. injection E as <- _. split; [|reflexivity]. intros m Hm Hi. apply Rnot_lt_le. intros Hp. assert (Hl : In m l) by (apply H; auto). apply in_rev in Hl. rewrite R in Hl. destruct Hl.
  - left. injection E as <- _. exists m. assert (Hl : In m l) by (apply in_rev; rewrite R; left; reflexivity). apply H in Hl. tauto.
Qed.
Print Assumptions C128_labels_partial.
(** Finding: a galaxy that is a member of several clusters is given the redshift of the one that comes last in the file, however
    unlikely it belongs to that one. *)
Theorem C128_labels_refuted : forall cat pcut id c1 c2 p1 p2 z1 z2, pcut < p2 -> p2 < p1 ->
  fst (zcal_of cat pcut [mkMem id c1 p1 z1; mkMem id c2 p2 z2] id) = z2.
Proof.
  intros cat pcut id c1 c2 p1 p2 z1 z2 H1 H2. unfold zcal_of. cbn [filter m_p m_id]. assert (A : Rltb pcut p1 = true) by (apply Rltb_iff; lra). assert (B : Rltb pcut p2 = true) by (apply Rltb_iff; lra).
  rewrite A, B. cbn [filter m_id]. rewrite Z.eqb_refl. reflexivity.
Qed.
Print Assumptions C128_labels_refuted.
(** the probabilities of a galaxy, all together *)
Fixpoint total_p (id : Z) (mems : list mem) : R := match mems with [] => 0 | m :: t => (if (m_id m =? id)%Z then m_p m else 0) + total_p id t end.
Lemma total_nonneg id mems : (forall m, In m mems -> 0 <= m_p m) -> 0 <= total_p id mems.
Proof. induction mems as [|m t IH]; intros H; cbn [total_p]; [lra|]. pose proof (H m (or_introl eq_refl)). specialize (IH (fun m' H' => H m' (or_intror H'))). destruct (m_id m =? id)%Z; lra. Qed.
Lemma total_ge id mems m : (forall m, In m mems -> 0 <= m_p m) -> In m mems -> m_id m = id -> m_p m <= total_p id mems.
Proof.
  induction mems as [|m' t IH]; intros H Hin Hid; [destruct Hin|]. cbn [total_p]. pose proof (H m' (or_introl eq_refl)). assert (H' : forall x, In x t -> 0 <= m_p x) by (intros; apply H; right; assumption).
  destruct Hin as [->|Hin]; [rewrite Hid, Z.eqb_refl; pose proof (total_nonneg id t H'); lra|]. specialize (IH H' Hin Hid). destruct (m_id m' =? id)%Z; lra.
Qed.
(** C128, where it cannot matter: if the probabilities of a galaxy add up to at most one and the wanted one is at least a half, there is
    but one such cluster. *)
Theorem C128_labels_one_partial : forall cat pcut mems id m, 1/2 <= pcut -> (forall m', In m' mems -> 0 <= m_p m') -> total_p id mems <= 1 ->
  In m mems -> m_id m = id -> pcut < m_p m -> fst (zcal_of cat pcut mems id) = m_z m.
Proof.
  intros cat pcut mems id m Hc Hp Ht Hin Hid Hm. unfold zcal_of.
  assert (F : filter (fun m => (m_id m =? id)%Z) (filter (fun m => Rltb pcut (m_p m)) mems) = [m]); [|rewrite F; reflexivity].
  induction mems as [|m' t IH]; [destruct Hin|]. cbn [total_p] in Ht. assert (H' : forall x, In x t -> 0 <= m_p x) by (intros; apply Hp; right; assumption). cbn [filter].
  destruct Hin as [->|Hin].
  - assert (A : Rltb pcut (m_p m) = true) by (apply Rltb_iff; lra). rewrite A. cbn [filter]. rewrite Hid, Z.eqb_refl. f_equal. rewrite Hid, Z.eqb_refl in Ht.
    assert (N : forall x, In x t -> m_id x = id -> m_p x <= pcut) by (intros x Hx Hi; pose proof (total_ge id t x H' Hx Hi); lra).
    clear - N. induction t as [|x t IH]; [reflexivity|]. cbn [filter]. assert (IHt := IH (fun y Hy => N y (or_intror Hy))). destruct (Rltb pcut (m_p x)) eqn:E; [|exact IHt].
    cbn [filter]. destruct (m_id x =? id)%Z eqn:I; [|exact IHt]. apply Z.eqb_eq in I. apply Rltb_iff in E. pose proof (N x (or_introl eq_refl) I). lra.
  - pose proof (total_ge id t m H' Hin Hid). destruct (Rltb pcut (m_p m')) eqn:E; [cbn [filter]|].
    + destruct (m_id m' =? id)%Z eqn:I; [apply Rltb_iff in E; lra|]. apply IH; try assumption. lra.
    + apply IH; try assumption. pose proof (Hp m' (or_introl eq_refl)). destruct (m_id m' =? id)%Z; lra.
Qed.
Print Assumptions C128_labels_one_partial.
(** the case of a fit that the selection follows: two galaxies inside of the nodes *)
Example C127_ex : let g := {| Redmagic.g_pay := 7; Redmagic.g_ra := 0; Redmagic.g_dec := 0; Redmagic.g_refmag := 17; Redmagic.g_zunc := 2/5; Redmagic.g_zunc_e := 1/50; Redmagic.g_chisq := 1; Redmagic.g_samp := [2/5]; Redmagic.g_ztrue := 0; Redmagic.g_zspec := 0 |} in
  let L := mkL (fun _ v _ => hd 0 v) (fun _ p => p) (fun _ _ _ p _ _ => p) (fun s => hd 0 s) in let k := mkFC [1/10; 1/2] [1/10; 1/2] 1 20 (fun _ => 20) None in
  agrees (l_spl L) (fun _ v _ => hd 0 v) /\ Redmagic.source_ok Redmagic.Truth /\ inside (k_nodes k) (Redmagic.g_zunc g) /\ 1/10 - 1/20 - 1/20 < Redmagic.g_zunc g < 1/2 + 1/20 + 1/20 /\ Redmagic.g_samp g <> [] /\
  counted L k [5; 5] (Some ([1/100], [1])) [seen (mode_of (fun _ v _ => hd 0 v) k (mkRec [5; 5] [1/100] [1]) (1/10) (1/2) (1/20) (1/20) (1/20) true true (fun _ _ => 1)) 0 g] = [2/5 - 1/100].
Proof.
  cbv zeta. split; [intros nodes v z _; reflexivity|]. split; [exact I|]. split; [exists (1/10), (1/2); cbn; repeat split; auto; lra|]. cbn [Redmagic.g_zunc Redmagic.g_samp]. split; [lra|]. split; [discriminate|].
  unfold counted. cbn [filter]. unfold seen. cbn [f_chisq f_z f_mag f_zmax f_samp l_spl k_nodes k_corr k_maxchi k_mstar k_etamin hd Redmagic.g_zunc Redmagic.g_chisq Redmagic.g_refmag Redmagic.g_samp Redmagic.g_ra Redmagic.g_dec Redmagic.g_zunc_e].
  assert (A : Rltb 1 (Rmin (Rmax 5 (1/10)) 20) = true) by (apply Rltb_iff, Rmin_glb_lt; [eapply Rlt_le_trans; [|apply Rmax_l]|]; lra). rewrite A.
  assert (B : Rltb 17 (20 - 25/10 * log10 1) = true) by (apply Rltb_iff; unfold log10; rewrite ln_1; lra). rewrite B.
  assert (C : Rltb (2/5 - 1/100) (Redmagic.zmax_at (mode_of (fun _ v _ => hd 0 v) {| k_nodes := [1/10; 1/2]; k_corr := [1/10; 1/2]; k_etamin := 1; k_maxchi := 20; k_mstar := fun _ => 20; k_train := None |} (mkRec [5; 5] [1/100] [1]) (1/10) (1/2) (1/20) (1/20) (1/20) true true (fun _ _ => 1)) 0 0) = true).
  { apply Rltb_iff. unfold Redmagic.zmax_at. cbn [mode_of Redmagic.m_vlim]. assert (D : Rltb 90 (Rabs 0) = false) by (apply Rltb_false; rewrite Rabs_R0; lra). rewrite D. eapply Rlt_le_trans; [|apply Rmax_r]. lra. }
  rewrite C. reflexivity.
Qed.
(** The fit with the afterburner needs the training galaxies and the corrections: without either, a RuntimeError. *)
Theorem C128_needed : forall L k gals cval corr, k_train k = None \/ corr = None -> fit L k gals cval corr true = Err RuntimeError.
Proof. intros L k gals cval corr H. unfold fit. destruct (k_train k), corr as [[b e]|]; try reflexivity. destruct H; discriminate. Qed.
Print Assumptions C128_needed.
