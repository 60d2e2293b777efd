From Coq Require Import String Sorting.Sorted Reals Lra Lia.
From Verif.Base Require Import Py PyLemmas.
From Verif.Model Require Galfile Consolidate.
From Verif.Model Require Import BkgGen Depth Redmagic.
From Verif.Spec Require Import Redmagic.
From Verif.Proofs Require Galfile Consolidate.
From Verif.Proofs Require Import BkgGen Solver Depth.
Local Open Scope R_scope.

Lemma corrected_eq m g : zredmagic m g = corrected m g.
Proof. unfold zredmagic, corrected. destruct (m_run m); ring. Qed.
Lemma lum_iff eta x : 0 < eta -> (25/10 * log10 eta < x <-> eta < pow10 (x / (25/10))).
Proof.
  intros He. pose proof ln10_pos as H10.
  assert (E : eta = pow10 (log10 eta)).
  { unfold pow10, log10, Rpower. replace (ln eta / ln 10 * ln 10) with (ln eta) by (field; lra). symmetry. apply exp_ln, He. }
  rewrite E at 2. split; intros H.
  - apply pow10_lt. lra.
  - destruct (Rlt_or_le (25/10 * log10 eta) x) as [L|L]; [exact L|]. pose proof (pow10_le (x / (25/10)) (log10 eta)). lra.
Qed.
Definition passes (mstar : R -> R) (m : mode) (g : gal) : bool :=
  (Rltb (g_chisq g) (chi2max m g) && Rltb (g_refmag g) (mstar (zredmagic m g) - 25/10 * log10 (m_etamin m)) &&
   Rltb (zredmagic m g) (zmax_at m (g_ra g) (g_dec g)) && red_poss mstar m g)%bool.
Lemma passes_iff mstar m g : 0 < m_etamin m -> passes mstar m g = true <-> selected mstar m g.
Proof.
  intros He. unfold passes, selected. rewrite !andb_true_iff. unfold red_poss. rewrite !andb_true_iff, !Rltb_iff, !corrected_eq.
  assert (A : g_refmag g < mstar (corrected m g) - 25/10 * log10 (m_etamin m) <-> m_etamin m < luminosity mstar (corrected m g) (g_refmag g)).
  { unfold luminosity. rewrite <- lum_iff by exact He. split; lra. }
  assert (B : g_refmag g < mstar (g_zunc g) - 25/10 * log10 (min_lstar m) <-> Rmax (1/10) (m_etamin m - m_lcush m) < luminosity mstar (g_zunc g) (g_refmag g)).
  { unfold luminosity, min_lstar. rewrite <- lum_iff by (pose proof (Rmax_l (1/10) (m_etamin m - m_lcush m)); lra). split; lra. }
  assert (C : g_chisq g < chi2max m g <-> red_enough m g).
  { unfold chi2max, red_enough. split.
    - intros H. pose proof (Rmin_l (Rmax (m_cmax m (g_zunc g)) (1/10)) (m_maxchi m)). pose proof (Rmin_r (Rmax (m_cmax m (g_zunc g)) (1/10)) (m_maxchi m)).
      split; [lra|]. unfold Rmax in *. destruct (Rle_dec (m_cmax m (g_zunc g)) (1/10)); [right|left]; lra.
    - intros [H1 [H2|H2]]; apply Rmin_glb_lt; try exact H1; [eapply Rlt_le_trans; [exact H2|apply Rmax_l]|eapply Rlt_le_trans; [exact H2|apply Rmax_r]]. }
  assert (D : corrected m g < zmax_at m (g_ra g) (g_dec g) <-> in_volume m g).
  { unfold zmax_at, in_volume. destruct (Rltb 90 (Rabs (g_dec g))) eqn:E.
    - apply Rltb_iff in E. rewrite Rmax_left by lra. split; [intros H; left; exact H|intros [H|[H _]]; lra].
    - apply Rltb_false in E. split.
      + intros H. unfold Rmax in H. destruct (Rle_dec 0 (m_vlim m (g_ra g) (g_dec g))); [right; split; lra|left; exact H].
      + intros [H|[_ H]]; [eapply Rlt_le_trans; [exact H|apply Rmax_l]|eapply Rlt_le_trans; [exact H|apply Rmax_r]]. }
  rewrite A, B, C, D. unfold in_range, red_enough. tauto.
Qed.

Definition mkrow (mstar : R -> R) (m : mode) (gz : gal * R) : redgal :=
  let g := fst gz in
  {| r_pay := g_pay g; r_ra := g_ra g; r_dec := g_dec g; r_refmag := g_refmag g; r_chisq := g_chisq g;
     r_lum := pow10 ((mstar (zredmagic m g) - g_refmag g) / (25/10)); r_z := zredmagic m g; r_ze := zredmagic_e m g;
     r_samp := zredmagic_samp m g; r_zspec := snd gz |}.
Lemma zip_out_map mstar m l zs : length zs = length l ->
  zip_out (map g_pay l) (map g_ra l) (map g_dec l) (map g_refmag l) (map g_chisq l)
    (map (fun g => pow10 ((mstar (zredmagic m g) - g_refmag g) / (25/10))) l) (map (zredmagic m) l) (map (zredmagic_e m) l) (map (zredmagic_samp m) l) zs
  = map (mkrow mstar m) (combine l zs).
Proof. revert zs. induction l as [|g l IH]; intros [|z zs] H; try discriminate H; [reflexivity|]. cbn. injection H as H. rewrite IH by exact H. reflexivity. Qed.
Lemma combine_map2 {A B C} (f : A -> B) (g : A -> C) l : combine (map f l) (map g l) = map (fun x => (f x, g x)) l.
Proof. induction l as [|a l IH]; cbn; [reflexivity|]. rewrite IH. reflexivity. Qed.
Lemma take_cols {A} (f : gal -> A) p gals : np_take (map f gals) (np_where p gals) = Ok (map f (filter p gals)).
Proof. apply Consolidate.np_take_map, Consolidate.np_take_where. Qed.

Lemma zspec_ok src p gals : source_ok src -> let sel := filter p gals in
  exists zs, zspec_cols src gals (np_where p gals) (map g_ra sel) (map g_dec sel) = Ok zs /\ length zs = length sel /\
    forall k g z, nth_error sel k = Some g -> nth_error zs k = Some z ->
      match src with
      | Truth => z = g_ztrue g | Column => z = g_zspec g
      | Match specs _ => z = -1 \/ exists s, In s specs /\ s_zerr s < 1/1000 /\ z = s_z s end.
Proof.
  intros Hs sel. destruct src as [| |specs near]; cbn [zspec_cols].
  - rewrite take_cols. exists (map g_ztrue sel). split; [reflexivity|]. split; [apply map_length|]. intros k g z Hg Hz. rewrite nth_error_map, Hg in Hz. cbn in Hz. congruence.
  - rewrite take_cols. exists (map g_zspec sel). split; [reflexivity|]. split; [apply map_length|]. intros k g z Hg Hz. rewrite nth_error_map, Hg in Hz. cbn in Hz. congruence.
  - rewrite combine_map2. cbn [source_ok] in Hs. set (use := filter (fun s => Rltb (s_zerr s) (1/1000)) specs).
    induction sel as [|g sel IH]; cbn [map Galfile.mapM].
    + exists []. repeat split. intros [|k] g z H; discriminate H.
    + destruct IH as (zs & E & L & H). cbn [fst snd]. destruct (near use (g_ra g) (g_dec g)) as [i|] eqn:En.
      * pose proof (Hs _ _ _ _ En) as Hi. destruct (nth_error use i) as [s|] eqn:Eu; [|apply nth_error_None in Eu; lia].
        cbn [bind]. rewrite E. cbn [bind]. exists (s_z s :: zs). split; [reflexivity|]. split; [cbn; congruence|].
        intros [|k] g' z Hg Hz; cbn in Hg, Hz; [|eapply H; eassumption]. right. exists s.
        apply nth_error_In in Eu. apply filter_In in Eu. rewrite Rltb_iff in Eu. intuition congruence.
      * cbn [bind]. rewrite E. cbn [bind]. exists (-1 :: zs). split; [reflexivity|]. split; [cbn; congruence|].
        intros [|k] g' z Hg Hz; cbn in Hg, Hz; [|eapply H; eassumption]. left. congruence.
Qed.

Lemma select_form mstar src m gals : source_ok src -> exists zs,
  select_mode mstar src m gals = Ok (map (mkrow mstar m) (combine (filter (passes mstar m) gals) zs), np_where (passes mstar m) gals) /\
  length zs = length (filter (passes mstar m) gals) /\
  forall k g z, nth_error (filter (passes mstar m) gals) k = Some g -> nth_error zs k = Some z ->
      match src with
      | Truth => z = g_ztrue g | Column => z = g_zspec g
      | Match specs _ => z = -1 \/ exists s, In s specs /\ s_zerr s < 1/1000 /\ z = s_z s end.
Proof.
  intros Hs. unfold select_mode. rewrite !map_map, !combine_map2, !map_map. cbn [fst snd].
  rewrite Consolidate.np_and_map. cbn [bind]. rewrite Consolidate.np_and_map. cbn [bind]. rewrite Consolidate.np_and_map. cbn [bind].
  set (gd := np_where (fun b : bool => b) _).
  assert (Eg : gd = np_where (passes mstar m) gals).
  { subst gd. unfold np_where. rewrite where_from_map. apply where_from_ext. intros g. reflexivity. }
  rewrite Eg. clear gd Eg. destruct (np_where (passes mstar m) gals) as [|i0 gd0] eqn:E0.
  - assert (Ef : filter (passes mstar m) gals = []).
    { rewrite <- np_sel_where_filter, E0. reflexivity. }
    rewrite Ef. exists []. repeat split. intros [|k] g z H; discriminate H.
  - rewrite <- E0. clear E0. rewrite !take_cols. cbn [bind].
    destruct (zspec_ok src (passes mstar m) gals Hs) as (zs & E & L & H). exists zs. rewrite E. cbn [bind].
    rewrite combine_map2, map_map. cbn [fst snd]. rewrite zip_out_map by exact L. repeat split; [exact L|exact H].
Qed.
Lemma where_nth {A} (p : A -> bool) l k i : nth_error (np_where p l) k = Some i ->
  exists x, nth_error l i = Some x /\ nth_error (filter p l) k = Some x.
Proof.
  intros H. pose proof (Consolidate.np_take_where p l) as Ht.
  assert (Hi : In i (np_where p l)) by (apply nth_error_In in H; exact H). apply np_where_spec in Hi. destruct Hi as (x & Hx & _).
  exists x. split; [exact Hx|]. destruct (np_take_nth _ _ _ _ _ Ht H) as (y & Hy & Hy'). congruence.
Qed.
Lemma select_ok mstar src m gals : source_ok src -> 0 < m_etamin m ->
  exists out gd, select_mode mstar src m gals = Ok (out, gd) /\ selection_of mstar src m gals out gd.
Proof.
  intros Hs He. destruct (select_form mstar src m gals Hs) as (zs & E & L & H). do 2 eexists. split; [exact E|].
  assert (Hlen : length (np_where (passes mstar m) gals) = length (filter (passes mstar m) gals)).
  { pose proof (np_take_len _ _ _ (Consolidate.np_take_where (passes mstar m) gals)). congruence. }
  repeat split.
  - unfold np_where. apply where_from_sorted.
  - rewrite map_length, combine_length. lia.
  - intros Hi. apply np_where_spec in Hi. destruct Hi as (g & Hg & Hp). exists g. split; [exact Hg|]. apply passes_iff; assumption.
  - intros (g & Hg & Hp). apply np_where_spec. exists g. split; [exact Hg|]. apply passes_iff; assumption.
  - intros k i Hk. destruct (where_nth _ _ _ _ Hk) as (g & Hg & Hf).
    assert (Hkl : (k < length zs)%nat) by (rewrite L; apply nth_error_Some; congruence).
    destruct (nth_error zs k) as [z|] eqn:Ez; [|apply nth_error_None in Ez; lia].
    exists g, (mkrow mstar m (g, z)). split; [exact Hg|]. split.
    + rewrite nth_error_map. assert (Hc : nth_error (combine (filter (passes mstar m) gals) zs) k = Some (g, z)).
      { clear -Hf Ez. revert k zs Hf Ez. induction (filter (passes mstar m) gals) as [|a l IH]; intros [|k] [|b zs] Hf Ez; try discriminate; cbn in *; [congruence|apply IH; assumption]. }
      rewrite Hc. reflexivity.
    + split.
      * unfold row_for, mkrow, luminosity. cbn. rewrite corrected_eq. repeat split.
        { unfold zredmagic_e. destruct (m_run m); ring. }
        { unfold zredmagic_samp. destruct (m_run m && m_apply m)%bool; [reflexivity|].
          rewrite <- (map_id (g_samp g)) at 1. apply map_ext. intros s. ring. }
      * specialize (H k g z Hf Ez). unfold zspec_for, mkrow. cbn. destruct src; exact H.
Qed.

(** ** the task *)
Lemma dset_same d f v : dset d f v f = Some v.
Proof. unfold dset. rewrite String.eqb_refl. reflexivity. Qed.
Lemma dset_other d f v x : x <> f -> dset d f v x = d x.
Proof. intros H. unfold dset. destruct (String.eqb_spec x f); [contradiction|reflexivity]. Qed.
Lemma mem_iff (x : string) l : existsb (String.eqb x) l = true <-> In x l.
Proof. rewrite existsb_exists. split; [intros (y & Hy & E); apply String.eqb_eq in E; subst; exact Hy|intros H; exists x; split; [exact H|apply String.eqb_refl]]. Qed.
Section Task.
  Variables (mstar : R -> R) (src : zsource) (modes : list (string * mode)).
  Variable sel : string -> list gal -> list redgal.
  Variable names : list string.
  Hypothesis Hsel : forall name gals, In name names -> exists gd, select_redmagic mstar src modes name gals = Ok (sel name gals, gd).

  Lemma spool_names gals todo d st : incl todo names -> NoDup todo ->
    (forall x, In x todo -> In x st -> exists v, d x = Some v) ->
    exists d' st', fold_left (spool mstar src modes gals) todo (Ok (d, st)) = Ok (d', st') /\
      (forall x, ~ In x todo -> d' x = d x) /\
      (forall x, In x todo -> In x st -> forall v, d x = Some v -> d' x = Some (v ++ sel x gals)) /\
      (forall x, In x todo -> ~ In x st -> d' x = Some (sel x gals)) /\
      (forall x, In x st' <-> In x st \/ In x todo).
  Proof.
    revert d st. induction todo as [|n todo IH]; intros d st Hi Hn Hst.
    - exists d, st. cbn [fold_left]. split; [reflexivity|]. split; [reflexivity|]. split; [intros x []|]. split; [intros x []|]. cbn. tauto.
    - inversion Hn as [|? ? Hnot Hn']; subst. destruct (Hsel n gals (Hi n (or_introl eq_refl))) as (gd & Egd).
      cbn [fold_left]. unfold spool at 2. cbn [bind]. rewrite Egd. cbn [bind fst].
      destruct (existsb (String.eqb n) st) eqn:Em.
      + apply mem_iff in Em. destruct (Hst n (or_introl eq_refl) Em) as (v & Ev). rewrite Ev.
        destruct (IH (dset d n (v ++ sel n gals)) st) as (d' & st' & E & H1 & H2 & H3 & H4).
        { intros x Hx. apply Hi. right. exact Hx. } { exact Hn'. }
        { intros x Hx Hs. rewrite dset_other by (intros ->; contradiction). apply Hst; [right; exact Hx|exact Hs]. }
        exists d', st'. split; [exact E|]. split; [|split; [|split]].
        * intros x Hx. rewrite H1 by (intros H; apply Hx; right; exact H). apply dset_other. intros ->. apply Hx. left. reflexivity.
        * intros x [<-|Hx] Hs w Hw; [rewrite H1 by exact Hnot; rewrite dset_same; congruence|].
          apply (H2 x Hx Hs). rewrite dset_other by (intros ->; contradiction). exact Hw.
        * intros x [<-|Hx] Hs; [contradiction|]. apply H3; assumption.
        * intros x. rewrite H4. cbn. split; [tauto|]. intros [H|[<-|H]]; tauto.
      + assert (Em' : ~ In n st) by (intros H; apply mem_iff in H; congruence).
        destruct (IH (dset d n (sel n gals)) (n :: st)) as (d' & st' & E & H1 & H2 & H3 & H4).
        { intros x Hx. apply Hi. right. exact Hx. } { exact Hn'. }
        { intros x Hx [<-|Hs]; [contradiction|]. rewrite dset_other by (intros ->; contradiction). apply Hst; [right; exact Hx|exact Hs]. }
        exists d', st'. split; [exact E|]. split; [|split; [|split]].
        * intros x Hx. rewrite H1 by (intros H; apply Hx; right; exact H). apply dset_other. intros ->. apply Hx. left. reflexivity.
        * intros x [<-|Hx] Hs w Hw; [contradiction|]. apply (H2 x Hx (or_intror Hs)). rewrite dset_other by (intros ->; contradiction). exact Hw.
        * intros x [<-|Hx] Hs; [rewrite H1 by exact Hnot; apply dset_same|]. apply H3; [exact Hx|]. intros [<-|H]; contradiction.
        * intros x. rewrite H4. cbn. tauto.
  Qed.
  Hypothesis Hnd : NoDup names.
  Lemma spool_more pixels d : (forall x, In x names -> exists v, d x = Some v) -> forall st, (forall x, In x names -> In x st) ->
    exists d' st', fold_left (fun s gals => fold_left (spool mstar src modes gals) names s) pixels (Ok (d, st)) = Ok (d', st') /\
      (forall x, ~ In x names -> d' x = d x) /\
      (forall x v, In x names -> d x = Some v -> d' x = Some (v ++ flat_map (sel x) pixels)).
  Proof.
    revert d. induction pixels as [|gals pixels IH]; intros d Hd st Hst; cbn [fold_left].
    - exists d, st. repeat split. intros x v _ H. cbn. rewrite app_nil_r. exact H.
    - destruct (spool_names gals names d st (incl_refl _) Hnd (fun x Hx _ => Hd x Hx)) as (d1 & st1 & E1 & A1 & A2 & _ & A4).
      rewrite E1. destruct (IH d1) with (st := st1) as (d' & st' & E & B1 & B2).
      { intros x Hx. destruct (Hd x Hx) as (v & Hv). eexists. apply (A2 x Hx (Hst x Hx) v Hv). }
      { intros x Hx. apply A4. left. apply Hst, Hx. }
      exists d', st'. split; [exact E|]. split.
      + intros x Hx. rewrite B1, A1 by exact Hx. reflexivity.
      + intros x v Hx Hv. rewrite (B2 x _ Hx (A2 x Hx (Hst x Hx) v Hv)). cbn [flat_map]. rewrite <- app_assoc. reflexivity.
  Qed.
  Lemma run_ok pixels clobber d : pixels <> [] -> (clobber = true \/ forall x, In x names -> d x = None) ->
    exists d', run_redmagic mstar src modes names clobber pixels d = Ok d' /\
      (forall x, In x names -> d' x = Some (flat_map (sel x) pixels)) /\ (forall x, ~ In x names -> d' x = d x).
  Proof.
    intros Hp Hc. unfold run_redmagic. destruct (existsb _ names) eqn:Ex.
    { exfalso. apply existsb_exists in Ex. destruct Ex as (x & Hx & E). destruct Hc as [->|Hc]; [destruct (d x); discriminate|]. rewrite (Hc x Hx) in E. discriminate. }
    destruct pixels as [|gals pixels]; [contradiction|]. cbn [fold_left].
    destruct (spool_names gals names d [] (incl_refl _) Hnd) as (d1 & st1 & E1 & A1 & _ & A3 & A4); [intros x _ []|].
    assert (E1' : fold_left (spool mstar src modes gals) names (Ok (d, [])) = @Ok (disk * list string) (d1, st1)) by exact E1.
    unfold disk in *. rewrite E1'. destruct (spool_more pixels d1) with (st := st1) as (d' & st' & E & B1 & B2).
    { intros x Hx. eexists. apply A3; [exact Hx|intros []]. } { intros x Hx. apply A4. right. exact Hx. }
    unfold disk in *. rewrite E. cbn [bind fst]. exists d'. split; [reflexivity|]. split.
    - intros x Hx. rewrite (B2 x _ Hx (A3 x Hx (fun H => H))). reflexivity.
    - intros x Hx. rewrite B1, A1 by exact Hx. reflexivity.
  Qed.
End Task.
