From Coq Require Import Reals Lra.
From Verif.Base Require Import Py PyLemmas.
From Verif.Model Require Import BkgGen Solver Richness MaskCorr.
From Verif.Spec Require Import Solver Richness MaskCorr.
From Verif.Proofs Require Import BkgGen Solver Richness.
From Coq Require Import Lia List. Import ListNotations.
Local Open Scope R_scope.

Lemma lsum_total (w : mgal -> R) gs : lsum (map w gs) = total_of w gs.
Proof. rewrite lsum_Rsum. induction gs as [|g t IH]; cbn; [reflexivity|]. rewrite IH. reflexivity. Qed.
Lemma total_filter (P : mgal -> bool) (w : mgal -> R) gs :
  total_of w (filter P gs) = total_of (fun g => if P g then w g else 0) gs.
Proof. induction gs as [|g t IH]; cbn; [reflexivity|]. destruct (P g); cbn; rewrite IH; ring. Qed.
Lemma total_ext (v w : mgal -> R) gs : (forall g, In g gs -> v g = w g) -> total_of v gs = total_of w gs.
Proof.
  induction gs as [|g t IH]; intros H; cbn; [reflexivity|]. rewrite (H g (or_introl eq_refl)), IH; [reflexivity|].
  intros; apply H; right; assumption.
Qed.
Lemma total_le (v w : mgal -> R) gs : (forall g, In g gs -> v g <= w g) -> total_of v gs <= total_of w gs.
Proof.
  induction gs as [|g t IH]; intros H; cbn; [lra|]. pose proof (H g (or_introl eq_refl)).
  assert (total_of v t <= total_of w t) by (apply IH; intros; apply H; right; assumption). lra.
Qed.
Lemma total_zero gs : total_of (fun _ => 0) gs = 0.
Proof. induction gs; cbn; lra. Qed.
Lemma total_nonneg (w : mgal -> R) gs : (forall g, In g gs -> 0 <= w g) -> 0 <= total_of w gs.
Proof. intros H. rewrite <- (total_zero gs). apply total_le, H. Qed.
Lemma total_const (c : R) gs : total_of (fun _ => c) gs = c * INR (List.length gs).
Proof. induction gs as [|g t IH]; [cbn; ring|]. cbn [total_of List.length]. rewrite S_INR, IH. ring. Qed.
Lemma total_map (w : mgal -> R) (h : mgal -> mgal) gs : total_of w (map h gs) = total_of (fun g => w (h g)) gs.
Proof. induction gs as [|g t IH]; cbn; [reflexivity|]. rewrite IH. reflexivity. Qed.

Lemma Rleb_false x y : y < x -> Rleb x y = false.
Proof. intros H. unfold Rleb. destruct (Rle_dec x y); [lra|reflexivity]. Qed.
Lemma Rleb_true x y : x <= y -> Rleb x y = true.
Proof. intros H. unfold Rleb. destruct (Rle_dec x y); [reflexivity|contradiction]. Qed.

Lemma det_limit_ok limmag gs lim : limit_rule limmag gs lim -> (forall g, In g gs -> 0 <= m_m50 g) ->
  exists lim', det_limit limmag gs = Ok lim' /\ forall g, lim' g = lim g.
Proof.
  intros [[(g0 & t & -> & H) Hl]|[(g0 & t & -> & Hw & g & Hg & Hm) Hl]] H50; unfold det_limit.
  - destruct (Rltb (m_w g0) 0) eqn:E.
    { eexists. split; [reflexivity|]. intros; symmetry; apply Hl. }
    apply Rltb_false in E. destruct H as [H|[Hw H0]]; [lra|].
    destruct (Req_EM_T (m_w g0) 0); [|contradiction].
    destruct (Req_EM_T _ 0) as [_|n].
    { eexists. split; [reflexivity|]. intros; symmetry; apply Hl. }
    exfalso. apply n. destruct (fold_Rmax_in (map m_m50 (g0 :: t)) (m_m50 g0)) as [->|Hin].
    + apply H0. left; reflexivity.
    + apply in_map_iff in Hin. destruct Hin as (g & <- & Hg). apply H0, Hg.
  - assert (E : Rltb (m_w g0) 0 = false) by (apply Rltb_false; lra). rewrite E.
    destruct (Req_EM_T (m_w g0) 0); [|contradiction].
    destruct (Req_EM_T _ 0) as [e0|_].
    + exfalso. destruct (fold_Rmax_ge (map m_m50 (g0 :: t)) (m_m50 g0)) as [_ H]. 
      specialize (H (m_m50 g) (in_map m_m50 _ _ Hg)). lra.
    + eexists. split; [reflexivity|]. intros; symmetry; apply Hl.
Qed.

Lemma pdet_seen erf obs lim lim' mstar maxmag g : (forall g, lim' g = lim g) ->
  pdet erf obs lim' mstar maxmag g = seen erf obs lim mstar maxmag g.
Proof.
  intros H. unfold pdet, seen. destruct (obs g (m_m g + mstar)) as [mag err]. cbn [fst snd]. rewrite H.
  destruct (m_mark g); ring.
Qed.

Lemma nth_error_combine_seq {A} (l : list A) j x : nth_error l j = Some x ->
  nth_error (combine (seq 0 (List.length l)) l) j = Some (j, x).
Proof.
  assert (H : forall s, nth_error l j = Some x -> nth_error (combine (seq s (List.length l)) l) j = Some ((s + j)%nat, x)).
  { revert j. induction l as [|y l IH]; intros [|j] s H; cbn in *; try discriminate.
    - injection H as ->. rewrite Nat.add_0_r. reflexivity.
    - rewrite (IH j (S s) H). f_equal. f_equal. lia. }
  apply H.
Qed.

Lemma gen_row erf rsig bright radbins rows g : In g (gen_sample erf rsig bright radbins rows) ->
  m_theta g = map (fun rad => theta_rad erf rsig rad (m_r g)) radbins /\
  m_nin g = map (fun rad => nin_of erf rsig bright rad rows) radbins.
Proof. intros H. apply in_map_iff in H. destruct H as (g' & <- & _). split; reflexivity. Qed.

Lemma nin_gen erf rsig bright radbins rows rad :
  nin_of erf rsig bright rad (gen_sample erf rsig bright radbins rows) = nin_of erf rsig bright rad rows.
Proof.
  unfold nin_of, gen_sample. rewrite !lsum_total, !total_filter, total_map. apply total_ext. intros g _. reflexivity.
Qed.
Lemma nin_expected erf rsig bright rad rows : 0 < rsig ->
  nin_of erf rsig bright rad rows = expected erf rsig bright rad rows.
Proof.
  intros H. unfold nin_of, expected. rewrite lsum_total, total_filter. apply total_ext. intros g _.
  unfold Rltb, theta_rad, inside. rewrite Rleb_false by exact H. destruct (Rlt_dec (m_m g) bright); reflexivity.
Qed.

(** the value at each radius, for any rsig *)
Lemma maskc_value erf obs lim mstar maxmag limmag rsig bright radbins rows gs :
  gs = gen_sample erf rsig bright radbins rows -> depth_known gs -> limit_rule limmag gs lim ->
  exists c, maskc erf obs mstar maxmag limmag gs = Ok c /\ List.length c = List.length radbins /\
    forall j rad, nth_error radbins j = Some rad ->
      nth_error c j = Some (1 - total_of (fun g => seen erf obs lim mstar maxmag g * theta_rad erf rsig rad (m_r g)) gs
                                 / nin_of erf rsig bright rad gs).
Proof.
  intros Hgs [(g0 & t & E0 & Hl0) H50] Hr. destruct (det_limit_ok limmag gs lim Hr H50) as (lim' & El & Hlim).
  apply Rltb_iff in Hl0.
  assert (Em : maskc erf obs mstar maxmag limmag gs =
    Ok (map (fun jn => 1 - lsum (map (fun g => pdet erf obs lim' mstar maxmag g * nth (fst jn) (m_theta g) 0) gs) / snd jn)
              (combine (seq 0 (List.length (m_nin g0))) (m_nin g0)))).
  { clear Hgs. subst gs. unfold maskc. rewrite Hl0, El. reflexivity. }
  rewrite Em. eexists. split; [reflexivity|].
  assert (Hin0 : In g0 (gen_sample erf rsig bright radbins rows)) by (rewrite <- Hgs, E0; left; reflexivity).
  destruct (gen_row _ _ _ _ _ _ Hin0) as [_ Hnin]. rewrite Hnin. split.
  { rewrite map_length, combine_length, seq_length, Nat.min_id, map_length. reflexivity. }
  intros j rad Hj. rewrite nth_error_map.
  assert (Hj' : nth_error (map (fun rad => nin_of erf rsig bright rad rows) radbins) j = Some (nin_of erf rsig bright rad rows))
    by (rewrite nth_error_map, Hj; reflexivity).
  pose proof (nth_error_combine_seq _ _ _ Hj') as Hc. rewrite Hc. cbn [option_map fst snd].
  f_equal. f_equal. f_equal.
  - rewrite lsum_total. apply total_ext. intros g Hg. rewrite (pdet_seen erf obs lim lim') by exact Hlim. f_equal.
    rewrite Hgs in Hg. destruct (gen_row _ _ _ _ _ _ Hg) as [Hth _]. rewrite Hth.
    apply nth_error_nth. rewrite nth_error_map, Hj. reflexivity.
  - rewrite Hgs, nin_gen. reflexivity.
Qed.

Lemma fraction erf obs lim mstar maxmag limmag rsig bright radbins rows gs : 0 < rsig ->
  gs = gen_sample erf rsig bright radbins rows -> depth_known gs -> limit_rule limmag gs lim ->
  exists c, maskc erf obs mstar maxmag limmag gs = Ok c /\ List.length c = List.length radbins /\
    forall j rad, nth_error radbins j = Some rad ->
      nth_error c j = Some (1 - detected erf obs lim mstar maxmag rsig rad gs / expected erf rsig bright rad gs).
Proof.
  intros Hs Hgs Hd Hr. destruct (maskc_value erf obs lim mstar maxmag limmag rsig bright radbins rows gs Hgs Hd Hr) as (c & Hc & Hlen & H).
  exists c. split; [exact Hc|]. split; [exact Hlen|]. intros j rad Hj. rewrite (H j rad Hj), (nin_expected _ _ _ _ _ Hs).
  f_equal. f_equal. f_equal. unfold detected. apply total_ext. intros g _.
  unfold theta_rad, inside. rewrite Rleb_false by exact Hs. reflexivity.
Qed.

(** ** bounds *)
Lemma inside_bounds erf rsig rad g : erf_bounded erf -> 0 <= inside erf rsig rad g <= 1.
Proof. intros H. unfold inside. match goal with |- context [erf ?x] => specialize (H x) end. lra. Qed.
Lemma seen_bounds erf obs lim mstar maxmag g : erf_bounded erf -> 0 <= seen erf obs lim mstar maxmag g <= 1.
Proof. intros H. unfold seen. destruct (m_mark g); [apply theta_bounds, H|lra]. Qed.
Lemma detected_nonneg erf obs lim mstar maxmag rsig rad gs : erf_bounded erf -> 0 <= detected erf obs lim mstar maxmag rsig rad gs.
Proof.
  intros H. apply total_nonneg. intros g _.
  apply Rmult_le_pos; [apply seen_bounds, H|apply inside_bounds, H].
Qed.
Lemma frac_le1 d e : 0 <= d -> 0 < e -> 1 - d / e <= 1.
Proof. intros. assert (0 <= d / e) by (apply Rmult_le_pos; [assumption|apply Rlt_le, Rinv_0_lt_compat; assumption]). lra. Qed.
Lemma frac_ge0 d e : d <= e -> 0 < e -> 0 <= 1 - d / e.
Proof. intros. assert (d / e <= 1); [|lra]. apply (Rmult_le_reg_r e); [assumption|]. unfold Rdiv. rewrite Rmult_assoc, Rinv_l; lra. Qed.
Lemma detected_le_expected erf obs lim mstar maxmag rsig bright rad gs : erf_bounded erf ->
  (forall g, In g gs -> bright <= m_m g -> seen erf obs lim mstar maxmag g = 0) ->
  detected erf obs lim mstar maxmag rsig rad gs <= expected erf rsig bright rad gs.
Proof.
  intros He Hf. apply total_le. intros g Hg. pose proof (inside_bounds erf rsig rad g He). pose proof (seen_bounds erf obs lim mstar maxmag g He).
  destruct (Rlt_dec (m_m g) bright) as [h|h].
  - rewrite <- (Rmult_1_l (inside erf rsig rad g)) at 2. apply Rmult_le_compat_r; lra.
  - rewrite (Hf g Hg) by lra. lra.
Qed.
Lemma detected_all erf obs lim mstar maxmag rsig bright rad gs :
  (forall g, In g gs -> m_m g < bright -> seen erf obs lim mstar maxmag g = 1) ->
  (forall g, In g gs -> bright <= m_m g -> seen erf obs lim mstar maxmag g = 0) ->
  detected erf obs lim mstar maxmag rsig rad gs = expected erf rsig bright rad gs.
Proof.
  intros H1 H0. apply total_ext. intros g Hg. destruct (Rlt_dec (m_m g) bright) as [h|h].
  - rewrite (H1 g Hg h). ring.
  - rewrite (H0 g Hg) by lra. ring.
Qed.
Lemma detected_none erf obs lim mstar maxmag rsig rad gs :
  (forall g, In g gs -> seen erf obs lim mstar maxmag g = 0) ->
  detected erf obs lim mstar maxmag rsig rad gs = 0.
Proof. intros H. rewrite <- (total_zero gs). apply total_ext. intros g Hg. rewrite (H g Hg). ring. Qed.

(** ** samples *)
Lemma slice_length {A} (l : list A) a b : (b <= List.length l)%nat -> List.length (slice l a b) = (b - a)%nat.
Proof. intros H. unfold slice. rewrite firstn_length, skipn_length. lia. Qed.
Lemma concat_blocks {A} (f : nat -> list A) n k : forall s m, (forall j, List.length (f j) = n) -> (k < m)%nat ->
  firstn n (skipn (k * n) (List.concat (map f (seq s m)))) = f (s + k)%nat.
Proof.
  induction k as [|k IH]; intros s [|m] Hn Hk; try lia.
  - cbn. rewrite Nat.add_0_r, firstn_app, (Hn s), Nat.sub_diag. cbn. rewrite app_nil_r, <- (Hn s). apply firstn_all.
  - cbn [seq map List.concat Nat.mul]. rewrite skipn_app, skipn_all2 by (rewrite Hn; lia). cbn [app].
    rewrite Hn. replace (n + k * n - n)%nat with (k * n)%nat by lia.
    rewrite (IH (S s) m Hn) by lia. f_equal. lia.
Qed.
Lemma concat_blocks' {A} (f : nat -> list A) n k s m : (forall j, (s <= j < s + m)%nat -> List.length (f j) = n) -> (k < m)%nat ->
  firstn n (skipn (k * n) (List.concat (map f (seq s m)))) = f (s + k)%nat.
Proof.
  intros Hn Hk. set (f' := fun j => if andb (Nat.leb s j) (Nat.ltb j (s + m)) then f j else firstn n (List.concat (repeat (f s) n))).
  assert (E : forall j, (s <= j < s + m)%nat -> f' j = f j).
  { intros j Hj. unfold f'. destruct (Nat.leb_spec s j), (Nat.ltb_spec j (s + m)); try lia. reflexivity. }
  rewrite <- (E (s + k)%nat) by lia.
  rewrite <- (concat_blocks f' n k s m).
  - f_equal. f_equal. f_equal. apply map_ext_in. intros j Hj. apply in_seq in Hj. symmetry. apply E. lia.
  - intros j. unfold f'. destruct (andb _ _) eqn:Eb.
    + apply andb_true_iff in Eb. rewrite Nat.leb_le, Nat.ltb_lt in Eb. apply Hn. lia.
    + rewrite firstn_length.
      assert (Hfs : List.length (f s) = n) by (apply Hn; lia).
      assert (Hlen : forall k, List.length (List.concat (repeat (f s) k)) = (k * n)%nat).
      { intros q. induction q as [|q IHq]; [reflexivity|]. cbn [repeat List.concat]. rewrite app_length, Hfs, IHq. lia. }
      rewrite Hlen. destruct n; [reflexivity|]. nia.
  - exact Hk.
Qed.
Lemma sample_length ngals k nsamples (rows : list mgal) : List.length rows = (ngals * nsamples)%nat -> (k < nsamples)%nat ->
  List.length (select_sample ngals k rows) = ngals.
Proof. intros H Hk. unfold select_sample. rewrite slice_length; nia. Qed.
Lemma select_gen erf rsig bright radbins ngals nsamples rows k :
  List.length rows = (ngals * nsamples)%nat -> (k < nsamples)%nat ->
  select_sample ngals k (gen_all erf rsig bright radbins ngals nsamples rows) =
    gen_sample erf rsig bright radbins (select_sample ngals k rows) /\
  List.length (select_sample ngals k (gen_all erf rsig bright radbins ngals nsamples rows)) = ngals.
Proof.
  intros Hl Hk.
  assert (E : select_sample ngals k (gen_all erf rsig bright radbins ngals nsamples rows) =
              gen_sample erf rsig bright radbins (select_sample ngals k rows)).
  { unfold select_sample at 1, slice. replace ((k + 1) * ngals - k * ngals)%nat with ngals by nia.
    unfold gen_all. rewrite (concat_blocks' (fun j => gen_sample erf rsig bright radbins (select_sample ngals j rows)) ngals k 0 nsamples).
    - reflexivity.
    - intros j Hj. unfold gen_sample. rewrite map_length. apply (sample_length ngals j nsamples); [exact Hl|lia].
    - exact Hk. }
  split; [exact E|]. rewrite E. unfold gen_sample. rewrite map_length. apply (sample_length ngals k nsamples); assumption.
Qed.

(** ** the mask part of the richness error *)
Lemma pout_bounds lam u b : 0 <= lam -> 0 <= u -> (forall x, b = Bval x -> 0 <= x /\ 0 < lam * u + x) -> 0 <= pout lam u b <= 1.
Proof.
  intros Hl Hu Hb. unfold pout. destruct b as [|b]; [lra|]. destruct (Hb b eq_refl) as [H1 H2].
  assert (0 <= lam * u) by (apply Rmult_le_pos; assumption). split.
  - apply Rmult_le_pos; [assumption|apply Rlt_le, Rinv_0_lt_compat; assumption].
  - apply (Rmult_le_reg_r (lam * u + b)); [assumption|]. unfold Rdiv. rewrite Rmult_assoc, Rinv_l; lra.
Qed.

Definition lostb (limmag mstar : R) (g : mgal) : bool := Rltb limmag (mstar + m_m g) || negb (m_mark g).
Lemma lostb_iff limmag mstar g : lostb limmag mstar g = true <-> missed limmag mstar g.
Proof.
  unfold lostb, missed. rewrite orb_true_iff, Rltb_iff, negb_true_iff. tauto.
Qed.
Lemma sumsq_lsum l : lsum (map (fun p => p ^ 2) l) = sumsq l.
Proof. rewrite lsum_Rsum. induction l as [|x l IH]; cbn [map Rsum sumsq]; [reflexivity|]. rewrite IH. reflexivity. Qed.
Lemma count_within rlam gs : INR (List.length (filter (fun g => Rltb (m_r g) rlam) gs)) = n_within rlam gs.
Proof.
  unfold n_within. rewrite <- (Rmult_1_l (INR _)), <- total_const, total_filter. apply total_ext. intros g _.
  unfold Rltb. destruct (Rlt_dec (m_r g) rlam); reflexivity.
Qed.
Lemma rleb_dec (A : Type) x y (a b : A) : (if Rleb x y then a else b) = if Rle_dec x y then a else b.
Proof. unfold Rleb. destruct (Rle_dec x y); reflexivity. Qed.
Lemma sum_out bkg limmag mstar lam rlam gs :
  lsum (map (fun g => pout lam (m_cwt g * (nfwnorm rlam * m_nfw g) * m_lumwt g)
                       (bkg (m_r g) (m_chisq g) (if Rleb limmag (mstar + m_m g) then limmag - 1/100 else mstar + m_m g)))
        (filter (fun g => Rltb limmag (mstar + m_m g) || negb (m_mark g)) (filter (fun g => Rltb (m_r g) rlam) gs)))
  = p_missed bkg limmag mstar lam rlam gs.
Proof.
  rewrite lsum_total, total_filter, total_filter. apply total_ext. intros g _. unfold Rltb, member_prob. rewrite rleb_dec.
  destruct (Rlt_dec (m_r g) rlam); [|reflexivity]. destruct (Rlt_dec limmag (mstar + m_m g)); [reflexivity|].
  cbn [orb]. destruct (m_mark g); reflexivity.
Qed.
Lemma member_prob_bounds bkg limmag mstar lam rlam g : 0 < lam -> bkg_ok bkg limmag mstar lam rlam g ->
  0 <= member_prob bkg limmag mstar lam rlam g <= 1.
Proof.
  intros Hl (H1 & H2 & H3 & Hb). unfold member_prob. rewrite norm_eq.
  assert (Hu : 0 <= m_cwt g * (nfwnorm rlam * m_nfw g) * m_lumwt g).
  { apply Rmult_le_pos; [apply Rmult_le_pos; [exact H1|apply Rmult_le_pos; [|exact H2]]|exact H3].
    unfold nfwnorm. cbv zeta. apply Rlt_le, exp_pos. }
  apply pout_bounds; [lra|exact Hu|]. intros x Hx. pose proof (Hb _ _ _ _ Hx). split; [lra|].
  pose proof (Rmult_le_pos lam _ (Rlt_le _ _ Hl) Hu). lra.
Qed.
Lemma p_missed_bounds bkg limmag mstar lam rlam gs : 0 < lam ->
  (forall g, In g gs -> bkg_ok bkg limmag mstar lam rlam g) ->
  0 <= p_missed bkg limmag mstar lam rlam gs <= n_within rlam gs.
Proof.
  intros Hl Hok. unfold p_missed, n_within. split.
  - apply total_nonneg. intros g Hg. pose proof (member_prob_bounds bkg limmag mstar lam rlam g Hl (Hok g Hg)).
    destruct (Rlt_dec _ _); [|lra]. destruct (Rlt_dec _ _); [lra|]. destruct (m_mark g); lra.
  - apply total_le. intros g Hg. pose proof (member_prob_bounds bkg limmag mstar lam rlam g Hl (Hok g Hg)).
    destruct (Rlt_dec _ _); [|lra]. destruct (Rlt_dec _ _); [lra|]. destruct (m_mark g); lra.
Qed.
Lemma filter_filter_in (P Q : mgal -> bool) gs : (exists g, In g gs /\ P g = true /\ Q g = true) -> filter Q (filter P gs) <> [].
Proof.
  intros (g & Hg & HP & HQ) E. assert (H : In g (filter Q (filter P gs))) by (apply filter_In; split; [apply filter_In; split|]; assumption).
  rewrite E in H. destruct H.
Qed.

Lemma cerr_value bkg limmag mstar beta gamma lam rlam cval gs pmem :
  1 <= lam -> (forall g, In g gs -> bkg_ok bkg limmag mstar lam rlam g) -> beta * gamma < 1 -> 0 < sumsq pmem ->
  1/100 <= cval -> (exists g, In g gs /\ within rlam g /\ missed limmag mstar g) ->
  let v := p_missed bkg limmag mstar lam rlam gs / n_within rlam gs / lam in
  0 <= v <= 1 /\
  calc_lambdacerr bkg limmag mstar beta gamma lam rlam cval gs pmem =
    lam ^ 2 / sumsq pmem * sqrt (v * (1 - v)) / (1 - beta * gamma) /\
  0 <= calc_lambdacerr bkg limmag mstar beta gamma lam rlam cval gs pmem.
Proof.
  intros Hl Hok Hbg Hp Hc (g & Hg & Hw & Hm) v.
  assert (Hn : 0 < n_within rlam gs).
  { rewrite <- count_within. apply lt_0_INR.
    assert (In g (filter (fun g => Rltb (m_r g) rlam) gs)) by (apply filter_In; split; [exact Hg|apply Rltb_iff, Hw]).
    destruct (filter _ gs); [contradiction|cbn; lia]. }
  pose proof (p_missed_bounds bkg limmag mstar lam rlam gs ltac:(lra) Hok) as [Hm0 Hm1].
  assert (Hq : 0 <= p_missed bkg limmag mstar lam rlam gs / n_within rlam gs <= 1).
  { split; [apply Rmult_le_pos; [exact Hm0|apply Rlt_le, Rinv_0_lt_compat, Hn]|].
    apply (Rmult_le_reg_r (n_within rlam gs)); [exact Hn|]. unfold Rdiv. rewrite Rmult_assoc, Rinv_l; lra. }
  assert (Hv : 0 <= v <= 1).
  { unfold v. split; [apply Rmult_le_pos; [apply Hq|apply Rlt_le, Rinv_0_lt_compat; lra]|].
    apply (Rmult_le_reg_r lam); [lra|]. unfold Rdiv at 1. rewrite Rmult_assoc, Rinv_l; lra. }
  assert (E : calc_lambdacerr bkg limmag mstar beta gamma lam rlam cval gs pmem =
    lam ^ 2 / sumsq pmem * sqrt (v * (1 - v)) / (1 - beta * gamma)).
  { unfold calc_lambdacerr. cbv zeta.
    assert (Hne := filter_filter_in (fun g => Rltb (m_r g) rlam) (fun g => Rltb limmag (mstar + m_m g) || negb (m_mark g)) gs
                     (ex_intro _ g (conj Hg (conj (proj2 (Rltb_iff _ _) Hw) (proj2 (lostb_iff limmag mstar g) Hm))))).
    rewrite sum_out, count_within, sumsq_lsum.
    destruct (filter _ (filter _ gs)) as [|g1 l]; [congruence|].
    assert (Ec : Rltb cval (1/100) = false) by (apply Rltb_false; exact Hc). rewrite Ec.
    assert (Ev : 1 / lam * (1 / n_within rlam gs) * p_missed bkg limmag mstar lam rlam gs = v)
      by (unfold v; field; lra).
    rewrite Ev. f_equal. f_equal. f_equal. ring. }
  split; [exact Hv|]. split; [exact E|]. rewrite E.
  apply Rmult_le_pos; [apply Rmult_le_pos; [|apply sqrt_pos]|apply Rlt_le, Rinv_0_lt_compat; lra].
  apply Rmult_le_pos; [apply pow2_ge_0|apply Rlt_le, Rinv_0_lt_compat, Hp].
Qed.
Lemma cerr_zero bkg limmag mstar beta gamma lam rlam cval gs pmem :
  cval < 1/100 \/ (forall g, In g gs -> within rlam g -> ~ missed limmag mstar g) ->
  calc_lambdacerr bkg limmag mstar beta gamma lam rlam cval gs pmem = 0.
Proof.
  intros H. unfold calc_lambdacerr. cbv zeta.
  destruct (filter _ (filter _ gs)) as [|g l] eqn:E; [reflexivity|].
  destruct H as [H|H].
  - apply Rltb_iff in H. rewrite H. reflexivity.
  - exfalso. assert (Hin : In g (g :: l)) by (left; reflexivity). rewrite <- E in Hin. apply filter_In in Hin.
    destruct Hin as [Hin Hm]. apply filter_In in Hin. destruct Hin as [Hin Hw].
    apply (H g Hin); [apply Rltb_iff, Hw|apply (lostb_iff limmag mstar g), Hm].
Qed.
Lemma fraction_same cp r : let '(c0, c1, c2, c3) := cp in
  (c0 - c3) * (r ^ 3 - 1) + (c1 - c2) * (r ^ 2 - r) = 0 -> cval_err cp r = Rmax 0 (mask_fraction cp r).
Proof. destruct cp as [[[c0 c1] c2] c3]. intros H. unfold cval_err, mask_fraction. f_equal. lra. Qed.
Lemma fraction_iff cp r : 0 < mask_fraction cp r -> let '(c0, c1, c2, c3) := cp in
  (cval_err cp r = mask_fraction cp r <-> (c0 - c3) * (r ^ 3 - 1) + (c1 - c2) * (r ^ 2 - r) = 0).
Proof.
  destruct cp as [[[c0 c1] c2] c3]. unfold cval_err, mask_fraction. intros H. unfold Rmax.
  destruct (Rle_dec _ _); split; intros; lra.
Qed.
Lemma fraction_lost r : 0 < r -> r <> 1 -> exists cp, mask_fraction cp r = 1/2 /\ cval_err cp r = 0.
Proof.
  intros H0 H1. assert (Hd : 1 - r ^ 6 <> 0).
  { intros E. replace (1 - r ^ 6) with ((1 - r) * (1 + r + r ^ 2 + r ^ 3 + r ^ 4 + r ^ 5)) in E by ring.
    apply Rmult_integral in E. destruct E as [E|E]; [lra|].
    assert (0 < r ^ 2) by (apply pow_lt; lra). assert (0 < r ^ 3) by (apply pow_lt; lra).
    assert (0 < r ^ 4) by (apply pow_lt; lra). assert (0 < r ^ 5) by (apply pow_lt; lra). lra. }
  exists (- r ^ 3 / (2 * (1 - r ^ 6)), 0, 0, 1/2 - (- r ^ 3 / (2 * (1 - r ^ 6))) * r ^ 3).
  unfold mask_fraction, cval_err. split; [field; exact Hd|].
  match goal with |- Rmax 0 ?x = 0 => replace x with 0 by (field; exact Hd) end. apply Rmax_left. lra.
Qed.
