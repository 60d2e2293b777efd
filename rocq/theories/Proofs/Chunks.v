From Coq Require Import Qround Sorting.Sorted.
From Verif.Base Require Import Py PyLemmas.
From Verif.Model Require Import Chunks.
From Verif.Spec Require Import Chunks.

(** ** chunks *)
Lemma chunks_upto n ngal k : 0 < n ->
  all_indices (map (fun ind => (ind, Nat.min (ind + n) ngal)) (map (fun j => j * n) (seq 0 k)))
  = seq 0 (Nat.min (k * n) ngal).
Proof.
  intros Hn. induction k as [|k IH]; [reflexivity|].
  rewrite seq_S, !map_app. unfold all_indices. rewrite map_app, concat_app. fold (all_indices (map (fun ind => (ind, Nat.min (ind + n) ngal)) (map (fun j => j * n) (seq 0 k)))).
  rewrite IH. cbn [map List.concat]. rewrite app_nil_r. unfold indices_of. cbn [fst snd]. cbn [Nat.add].
  destruct (Nat.le_gt_cases ngal (k * n)).
  - rewrite !Nat.min_r by lia. replace (ngal - k * n) with 0 by lia. cbn. apply app_nil_r.
  - rewrite (Nat.min_l (k * n)) by lia.
    replace (Nat.min (S k * n) ngal) with (k * n + (Nat.min (k * n + n) ngal - k * n)) by lia.
    rewrite seq_app. reflexivity.
Qed.
Lemma zred_chunks_ok ngal n : 0 < n -> exists cs, zred_chunks ngal n = Ok cs /\ all_indices cs = seq 0 ngal.
Proof.
  intros Hn. unfold zred_chunks. destruct (Nat.eqb_spec n 0); [lia|]. eexists; split; [reflexivity|].
  unfold starts. rewrite chunks_upto by exact Hn. f_equal. apply Nat.min_r.
  pose proof (Nat.div_mod (ngal + n - 1) n ltac:(lia)). pose proof (Nat.mod_upper_bound (ngal + n - 1) n ltac:(lia)).
  nia.
Qed.
Lemma default_pos ngal nproc mx : 0 < nproc -> 0 < mx -> nproc <= ngal -> 0 < default_nperproc ngal nproc mx.
Proof.
  intros H1 H2 H3. unfold default_nperproc.
  assert (Hq : (1 <= inject_Z (Z.of_nat ngal) / (inject_Z (Z.of_nat nproc) - (1 # 10)))%Q).
  { assert (Hp : (1 <= inject_Z (Z.of_nat nproc))%Q) by (unfold Qle; cbn; lia).
    assert (Hle : (inject_Z (Z.of_nat nproc) <= inject_Z (Z.of_nat ngal))%Q) by (rewrite <- Zle_Qle; lia).
    apply Qle_shift_div_l; [unfold Qlt, Qminus, Qplus, Qopp; cbn; lia|]. rewrite Qmult_1_l. unfold Qle, Qminus, Qplus, Qopp. cbn. lia. }
  apply Qfloor_resp_le in Hq. change (Qfloor 1) with 1%Z in Hq. lia.
Qed.
Lemma zred_run_ok ngal nproc mx : 0 < nproc -> 0 < mx -> nproc <= ngal ->
  exists cs, zred_run_chunks ngal nproc mx = Ok cs /\ all_indices cs = seq 0 ngal.
Proof. intros. apply zred_chunks_ok, default_pos; assumption. Qed.

(** ** uniqueZ *)
Lemma insertZ_In x y l : In y (insertZ x l) <-> y = x \/ In y l.
Proof.
  induction l as [|z l IH]; cbn; [intuition|].
  destruct (Z.ltb_spec x z); cbn; [intuition|]. destruct (Z.eqb_spec x z) as [->|n]; cbn; [intuition|].
  rewrite IH. intuition.
Qed.
Lemma uniqueZ_In y l : In y (uniqueZ l) <-> In y l.
Proof. induction l as [|x l IH]; cbn; [tauto|]. rewrite insertZ_In, IH. intuition. Qed.
Lemma insertZ_sorted x l : StronglySorted Z.lt l -> StronglySorted Z.lt (insertZ x l).
Proof.
  induction l as [|z l IH]; intros H; cbn; [repeat constructor|].
  inversion H as [|? ? Hs Hf]; subst. destruct (Z.ltb_spec x z).
  - constructor; [exact H|]. constructor; [exact H0|]. eapply Forall_impl; [|exact Hf]. cbn; lia.
  - destruct (Z.eqb_spec x z) as [->|n]; [exact H|]. constructor; [apply IH, Hs|].
    rewrite Forall_forall in *. intros y Hy. apply insertZ_In in Hy. destruct Hy as [->|Hy]; [lia|]. apply Hf, Hy.
Qed.
Lemma uniqueZ_sorted l : StronglySorted Z.lt (uniqueZ l).
Proof. induction l; cbn; [constructor|]. apply insertZ_sorted, IHl. Qed.

(** ** subpixels *)

Lemma np_take_match_snd {A} a1 (f : A -> Z) (l : list A) m r :
  eu_match a1 (map f l) = Ok m -> np_take l (snd m) = Ok r ->
  forall x, In x r <-> In x l /\ In (f x) a1.
Proof.
  unfold eu_match. destruct (_ || _); [discriminate|]. destruct (nodupZ a1); [|discriminate]. intros [= <-] H x.
  apply np_take_sel in H. subst r. rewrite np_sel_In. rewrite match_from_snd. split.
  - intros (i & Hi & Hx). apply (np_where_spec _ (map f l)) in Hi. destruct Hi as (y & Hy & Hp).
    rewrite nth_error_map, Hx in Hy. cbn in Hy. injection Hy as <-. split; [eapply nth_error_In; eauto|].
    destruct (index_ofZ (f x) a1) as [k|] eqn:E; [|discriminate]. apply index_ofZ_nth in E. eapply nth_error_In; eauto.
  - intros [Hx Hf]. apply In_nth_error in Hx. destruct Hx as (i & Hi). exists i. split; [|exact Hi].
    apply (np_where_spec _ (map f l)). exists (f x). split; [rewrite nth_error_map, Hi; reflexivity|].
    destruct (index_ofZ_In _ _ Hf) as (k & ->). reflexivity.
Qed.
Lemma np_take_match_fst a1 a2 m r :
  eu_match a1 a2 = Ok m -> np_take a1 (fst m) = Ok r ->
  forall x, In x r <-> In x a1 /\ In x a2.
Proof.
  unfold eu_match. destruct (_ || _); [discriminate|]. destruct (nodupZ a1); [|discriminate]. intros [= <-] H x.
  apply np_take_sel in H. subst r. rewrite np_sel_In. rewrite match_from_fst. split.
  - intros (i & Hi & Hx). apply in_flat_map in Hi. destruct Hi as (y & Hy & Hi).
    destruct (index_ofZ y a1) as [k|] eqn:E; [|contradiction]. destruct Hi as [<-|[]].
    apply index_ofZ_nth in E. rewrite E in Hx. injection Hx as <-. split; [eapply nth_error_In; eauto|exact Hy].
  - intros [H1 H2]. destruct (index_ofZ_In _ _ H1) as (k & Hk). exists k. split; [|apply index_ofZ_nth, Hk].
    apply in_flat_map. exists x. rewrite Hk. cbn. auto.
Qed.


Definition region (g : split_geo) (dpix : Z -> Z) (t : Z) : Prop := sg_hpix g = [] \/ In (dpix t) (sg_hpix g).
Lemma in_region_iff g dpix t : in_region g dpix t = true <-> region g dpix t.
Proof.
  unfold in_region, region. destruct (sg_hpix g) as [|h hs] eqn:E; [tauto|].
  rewrite existsb_exists. split.
  - intros (x & Hx & He). apply Z.eqb_eq in He. subst x. auto.
  - intros [H|H]; [discriminate|]. exists (dpix t). rewrite Z.eqb_refl. auto.
Qed.
Lemma region_pixels_In g dpix t : In t (region_pixels g dpix) <-> In t (sg_tab g) /\ region g dpix t.
Proof. unfold region_pixels. rewrite filter_In, in_region_iff. tauto. Qed.

Lemma get_subpixels_spec g ns r dpix (P : nat -> Prop) :
  healpix_ok g dpix P -> P ns ->
  get_subpixels g ns = Ok r ->
  StronglySorted Z.lt r /\
  forall p, In p r <-> In p (map (sg_up g ns) (region_pixels g dpix)).
Proof.
  unfold get_subpixels. intros [Hr Hp] Hns H. specialize (Hr ns). specialize (Hp ns).
  set (pix0 := map Z.of_nat (seq 0 (sg_npix g ns))) in *.
  destruct (if Nat.ltb 0 (List.length (sg_hpix g)) then _ else _) as [pix|] eqn:Epix; cbn [bind] in H; [|discriminate].
  destruct (eu_match pix _) as [m|] eqn:Em; cbn [bind] in H; [|discriminate].
  destruct (np_take pix (fst m)) as [ps|] eqn:Ep; cbn [bind] in H; [|discriminate]. injection H as <-.
  split; [apply uniqueZ_sorted|]. intros p. rewrite uniqueZ_In.
  rewrite (np_take_match_fst _ _ _ _ Em Ep).
  assert (Hpix : forall q, In q pix <-> In q pix0 /\ (sg_hpix g = [] \/ In (sg_par g ns q) (sg_hpix g))).
  { intros q. destruct (Nat.ltb_spec 0 (List.length (sg_hpix g))) as [Hl|Hl].
    - destruct (eu_match (sg_hpix g) _) as [m1|] eqn:E1; cbn [bind] in Epix; [|discriminate].
      rewrite (np_take_match_snd _ _ _ _ _ E1 Epix). split; [tauto|]. intros [H1 [H2|H2]]; [|tauto].
      rewrite H2 in Hl. cbn in Hl. lia.
    - injection Epix as <-. destruct (sg_hpix g); [|cbn in Hl; lia]. tauto. }
  rewrite Hpix, !in_map_iff. split.
  - intros [[_ Hreg] (t & Ht & Hin)]. exists t. split; [exact Ht|]. apply region_pixels_In. split; [exact Hin|].
    destruct Hreg as [Hreg|Hreg]; [left; exact Hreg|]. right.
    rewrite <- (Hp t Hns), Ht; [exact Hreg| |exact Hin]. intros E; rewrite E in Hreg; contradiction.
  - intros (t & <- & Hin). apply region_pixels_In in Hin. destruct Hin as [Hin Hreg]. split; [|exists t; auto]. split.
    + unfold pix0. apply in_map_iff. specialize (Hr t Hns Hin). exists (Z.to_nat (sg_up g ns t)).
      split; [lia|]. apply in_seq. lia.
    + destruct Hreg as [Hreg|Hreg]; [auto|]. right. rewrite Hp; auto. intros E; rewrite E in Hreg; contradiction.
Qed.

Lemma SS_lt_NoDup l : StronglySorted Z.lt l -> NoDup l.
Proof.
  induction 1 as [|x l H IH Hf]; constructor; [|exact IH]. rewrite Forall_forall in Hf.
  intros Hin. specialize (Hf _ Hin). lia.
Qed.
Lemma get_subpixels_count g ns r dpix (P : nat -> Prop) :
  healpix_ok g dpix P -> P ns -> get_subpixels g ns = Ok r ->
  List.length r = n_occupied g dpix ns.
Proof.
  intros Hg Hn H. destruct (get_subpixels_spec _ _ _ _ _ Hg Hn H) as [Hs Hi].
  unfold n_occupied. apply Nat.le_antisymm.
  - apply NoDup_incl_length; [apply SS_lt_NoDup, Hs|]. intros p Hp. apply nodup_In, Hi, Hp.
  - apply NoDup_incl_length; [apply NoDup_nodup|]. intros p Hp. apply Hi. eapply nodup_In, Hp.
Qed.

Lemma eu_match_ok a1 a2 : a1 <> [] -> a2 <> [] -> NoDup a1 -> exists m, eu_match a1 a2 = Ok m.
Proof.
  intros H1 H2 H3. unfold eu_match. destruct a1; [congruence|]. destruct a2; [congruence|]. cbn [List.length Nat.eqb orb].
  apply nodupZ_iff in H3. rewrite H3. eauto.
Qed.
Lemma NoDup_of_nat_seq n : NoDup (map Z.of_nat (seq 0 n)).
Proof. apply FinFun.Injective_map_NoDup; [intros x y; lia|apply seq_NoDup]. Qed.

Lemma get_subpixels_ok g ns dpix (P : nat -> Prop) :
  healpix_ok g dpix P -> P ns -> NoDup (sg_hpix g) -> region_pixels g dpix <> [] ->
  exists r, get_subpixels g ns = Ok r.
Proof.
  intros Hg Hns Hnd Hne.
  destruct (region_pixels g dpix) as [|t rest] eqn:Er; [congruence|]. clear Hne.
  assert (Ht : In t (region_pixels g dpix)) by (rewrite Er; left; reflexivity).
  apply region_pixels_In in Ht. destruct Ht as [Ht Hreg].
  destruct Hg as [Hr Hp]. specialize (Hr ns t Hns Ht). specialize (Hp ns t Hns).
  unfold get_subpixels. set (pix0 := map Z.of_nat (seq 0 (sg_npix g ns))) in *.
  assert (Hup : In (sg_up g ns t) pix0).
  { unfold pix0. apply in_map_iff. exists (Z.to_nat (sg_up g ns t)). split; [lia|]. apply in_seq; lia. }
  assert (Hpix : exists pix, (if Nat.ltb 0 (List.length (sg_hpix g)) then
                  do m <- eu_match (sg_hpix g) (map (sg_par g ns) pix0); np_take pix0 (snd m) else Ok pix0) = Ok pix
                 /\ pix <> [] /\ NoDup pix).
  { destruct (Nat.ltb_spec 0 (List.length (sg_hpix g))) as [Hl|Hl].
    - assert (Hh : sg_hpix g <> []) by (intros E; rewrite E in Hl; cbn in Hl; lia).
      destruct (eu_match_ok (sg_hpix g) (map (sg_par g ns) pix0)) as (m & Hm); auto.
      { intros E. apply map_eq_nil in E. rewrite E in Hup. contradiction. }
      rewrite Hm. cbn [bind].
      assert (Hms : snd m = np_where (fun z => match index_ofZ z (sg_hpix g) with Some _ => true | None => false end) (map (sg_par g ns) pix0)).
      { unfold eu_match in Hm. destruct (_ || _); [discriminate|]. destruct (nodupZ _); [|discriminate].
        injection Hm as <-. apply match_from_snd. }
      assert (Hpx : np_take pix0 (snd m) = Ok (np_sel pix0 (snd m))).
      { apply np_take_ok. intros i Hi. rewrite Hms in Hi. apply np_where_spec in Hi. destruct Hi as (y & Hy & _).
        rewrite <- (map_length (sg_par g ns)). apply nth_error_Some. congruence. }
      exists (np_sel pix0 (snd m)). split; [exact Hpx|]. split.
      + assert (In (sg_up g ns t) (np_sel pix0 (snd m))).
        { apply (np_take_match_snd _ _ _ _ _ Hm Hpx). split; [exact Hup|]. destruct Hreg as [E|Hi]; [congruence|].
          rewrite Hp; auto. }
        intros E; rewrite E in H; contradiction.
      + rewrite Hms. unfold np_where. rewrite where_from_map. fold (np_where (fun x => match index_ofZ (sg_par g ns x) (sg_hpix g) with Some _ => true | None => false end) pix0).
        rewrite np_sel_where_filter.
        apply NoDup_filter, NoDup_of_nat_seq.
    - exists pix0. split; [reflexivity|]. split; [intros ->; contradiction|apply NoDup_of_nat_seq]. }
  destruct Hpix as (pix & -> & Hpne & Hpnd). cbn [bind].
  destruct (eu_match_ok pix (map (sg_up g ns) (sg_tab g)) Hpne) as (m & Hm); [|exact Hpnd|].
  { intros E. apply map_eq_nil in E. rewrite E in Ht. contradiction. }
  rewrite Hm. cbn [bind].
  assert (Hps : np_take pix (fst m) = Ok (np_sel pix (fst m))).
  { apply np_take_ok. intros i Hi. unfold eu_match in Hm. destruct (_ || _); [discriminate|]. destruct (nodupZ _); [|discriminate].
    injection Hm as <-. rewrite match_from_fst in Hi. apply in_flat_map in Hi. destruct Hi as (y & Hy & Hi).
    destruct (index_ofZ y pix) eqn:E; [|contradiction]. destruct Hi as [<-|[]]. apply index_ofZ_nth in E.
    apply nth_error_Some. congruence. }
  rewrite Hps. cbn [bind]. eauto.
Qed.

Lemma resolutions_ok f : forall n tn, 0 < n -> tn <= n + f ->
  exists l, resolutions (S f) n tn = Some (n :: l) /\
    (forall m, In m (n :: l) <-> exists k, m = n * 2 ^ k /\ (k = 0 \/ n * 2 ^ (k - 1) < tn)) /\
    StronglySorted lt (n :: l).
Proof.
  induction f as [|f IH]; intros n tn Hn Hf.
  - cbn [resolutions]. destruct (Nat.ltb_spec n tn); [lia|]. exists []. split; [reflexivity|]. split; [|repeat constructor].
    intros m. cbn [In]. split.
    + intros [<-|[]]. exists 0. cbn; split; [lia|auto].
    + intros (k & -> & [->|Hk]); [cbn; lia|]. pose proof (Nat.pow_nonzero 2 (k-1) ltac:(lia)). nia.
  - change (resolutions (S (S f)) n tn) with
      (if Nat.ltb n tn then match resolutions (S f) (2 * n) tn with Some l => Some (n :: l) | None => None end else Some [n]).
    destruct (Nat.ltb_spec n tn) as [Hl|Hl].
    + destruct (IH (2 * n) tn ltac:(lia) ltac:(lia)) as (l & -> & Hm & Hs). exists (2 * n :: l). split; [reflexivity|].
      assert (Hin : forall m, In m (n :: 2 * n :: l) <-> (exists k, m = n * 2 ^ k /\ (k = 0 \/ n * 2 ^ (k - 1) < tn))).
      { intros m. split.
        - intros [<-|H]; [exists 0; cbn; split; [lia|auto]|]. apply Hm in H. destruct H as (k & -> & Hk).
          exists (S k). cbn [Nat.pow]. split; [lia|]. right. replace (S k - 1) with k by lia.
          destruct Hk as [->|Hk]; [cbn; lia|]. destruct k; [cbn; lia|]. replace (S k - 1) with k in Hk by lia.
          cbn [Nat.pow]. lia.
        - intros (k & -> & Hk). destruct k; [left; cbn; lia|]. right. apply Hm. exists k. cbn [Nat.pow]. split; [lia|].
          destruct Hk as [Hk|Hk]; [lia|]. replace (S k - 1) with k in Hk by lia. destruct k; [auto|]. right.
          replace (S k - 1) with k by lia. cbn [Nat.pow] in Hk. lia. }
      split; [exact Hin|]. constructor; [exact Hs|]. apply Forall_forall. intros x Hx. apply Hm in Hx.
      destruct Hx as (k & -> & _). pose proof (Nat.pow_nonzero 2 k ltac:(lia)). nia.
    + exists []. split; [reflexivity|]. split; [|repeat constructor].
      intros m. cbn [In]. split.
      * intros [<-|[]]. exists 0. cbn; split; [lia|auto].
      * intros (k & -> & [->|Hk]); [cbn; lia|]. pose proof (Nat.pow_nonzero 2 (k-1) ltac:(lia)). nia.
Qed.

Lemma last_where_app {A} (p : A -> bool) l x acc :
  fold_left (fun acc x => if p x then Some x else acc) (l ++ [x]) acc
  = if p x then Some x else fold_left (fun acc x => if p x then Some x else acc) l acc.
Proof. rewrite fold_left_app. reflexivity. Qed.
Lemma last_where_spec {A} (p : A -> bool) l :
  match last_where p l with
  | Some x => exists l1 l2, l = l1 ++ x :: l2 /\ p x = true /\ forall y, In y l2 -> p y = false
  | None => forall y, In y l -> p y = false
  end.
Proof.
  unfold last_where. induction l as [|x l IH] using rev_ind; [cbn; tauto|].
  rewrite last_where_app. destruct (p x) eqn:E.
  - exists l, []. split; [reflexivity|]. split; [exact E|]. intros y [].
  - destruct (fold_left _ l None) as [y|].
    + destruct IH as (l1 & l2 & -> & Hy & Hl). exists l1, (l2 ++ [x]). rewrite <- app_assoc. split; [reflexivity|].
      split; [exact Hy|]. intros z Hz. apply in_app_or in Hz. destruct Hz as [Hz|[<-|[]]]; auto.
    + intros y Hy. apply in_app_or in Hy. destruct Hy as [Hy|[<-|[]]]; auto.
Qed.

Lemma mapM_pairs {A B} (f : A -> res B) l : (forall x, In x l -> exists y, f x = Ok y) ->
  exists ss, mapM (fun n => do s <- f n; Ok (n, s)) l = Ok ss /\ map fst ss = l /\
    forall x y, In (x, y) ss -> f x = Ok y.
Proof.
  induction l as [|x l IH]; intros H; cbn [mapM]; [exists []; cbn; intuition|].
  destruct (H x (or_introl eq_refl)) as (y & Hy). rewrite Hy. cbn [bind].
  destruct IH as (ss & -> & Hm & Hf); [intros; apply H; right; assumption|]. cbn [bind].
  exists ((x, y) :: ss). cbn. rewrite Hm. split; [reflexivity|]. split; [reflexivity|].
  intros x' y' [[= <- <-]|Hi]; auto.
Qed.

Lemma coarsest_eq g dn mn :
  (if Nat.eqb (List.length (sg_hpix g)) 0 then mn else if Nat.ltb mn dn then dn else mn) = coarsest g dn mn.
Proof.
  unfold coarsest. destruct (sg_hpix g); cbn [List.length Nat.eqb]; [reflexivity|]. destruct (Nat.ltb_spec mn dn); lia.
Qed.

Lemma splits_main g dpix dn mn nproc :
  healpix_ok g dpix (allowed g (coarsest g dn mn)) -> NoDup (sg_hpix g) -> region_pixels g dpix <> [] ->
  0 < mn -> nproc <> 1 ->
  exists ns px, get_pixel_splits g dn mn nproc = Ok (ns, px) /\
    NoDup px /\ (forall p, In p px <-> exists t, In t (region_pixels g dpix) /\ sg_up g ns t = p) /\
    allowed g (coarsest g dn mn) ns /\
    ((n_occupied g dpix ns <= 2 * nproc /\
      forall ns', allowed g (coarsest g dn mn) ns' -> ns < ns' -> 2 * nproc < n_occupied g dpix ns')
     \/ (ns = coarsest g dn mn /\
         forall ns', allowed g (coarsest g dn mn) ns' -> 2 * nproc < n_occupied g dpix ns')).
Proof.
  intros Hg Hnd Hne Hmn Hnp. unfold get_pixel_splits. destruct (Nat.eqb_spec nproc 1); [contradiction|].
  rewrite coarsest_eq. set (n0 := coarsest g dn mn).
  assert (Hn0 : 0 < n0). { unfold n0, coarsest. destruct (sg_hpix g); lia. }
  fold n0 in Hg.
  destruct (resolutions_ok (sg_tabnside g) n0 (sg_tabnside g) Hn0 ltac:(lia)) as (l & -> & Hin & Hs).
  change (forall m, In m (n0 :: l) <-> allowed g n0 m) in Hin.
  destruct (mapM_pairs (get_subpixels g) (n0 :: l)) as (ss & -> & Hfst & Hss).
  { intros m Hm. apply Hin in Hm. eapply get_subpixels_ok; eauto. }
  cbn [bind].
  assert (Hall : forall m s, In (m, s) ss -> allowed g n0 m /\ get_subpixels g m = Ok s
                   /\ List.length s = n_occupied g dpix m).
  { intros m s Hi. assert (Hm : In m (n0 :: l)) by (rewrite <- Hfst; change m with (fst (m, s)); apply in_map, Hi).
    apply Hin in Hm. pose proof (Hss _ _ Hi) as Hsub. split; [exact Hm|]. split; [exact Hsub|]. eapply get_subpixels_count; eauto. }
  assert (Hex : forall m, allowed g n0 m -> exists s, In (m, s) ss).
  { intros m Hm. apply Hin in Hm. rewrite <- Hfst in Hm. apply in_map_iff in Hm. destruct Hm as ((m' & s) & <- & Hi). eauto. }
  assert (Hfin : forall m s, In (m, s) ss -> NoDup s /\ forall p, In p s <-> exists t, In t (region_pixels g dpix) /\ sg_up g m t = p).
  { intros m s Hi. destruct (Hall m s Hi) as (H1 & H3 & _).
    destruct (get_subpixels_spec _ _ _ _ _ Hg H1 H3) as [Hso Hi2]. split; [apply SS_lt_NoDup, Hso|].
    intros p. rewrite Hi2, in_map_iff. split; intros (t & Ha & Hb); exists t; auto. }
  pose proof (last_where_spec (fun x : nat * list Z => Nat.leb (List.length (snd x)) (2 * nproc)) ss) as HL.
  destruct (last_where _ ss) as [[ns px]|].
  - destruct HL as (l1 & l2 & E & Hle & Hgt). cbn [snd] in Hle. apply Nat.leb_le in Hle.
    assert (Hi : In (ns, px) ss) by (rewrite E; apply in_or_app; right; left; reflexivity).
    destruct (Hall _ _ Hi) as (Ha & _ & Hc). destruct (Hfin _ _ Hi) as [Hf1 Hf2].
    exists ns, px. split; [reflexivity|]. split; [exact Hf1|]. split; [exact Hf2|]. split; [exact Ha|].
    left. split; [lia|]. intros ns' Ha' Hlt. destruct (Hex _ Ha') as (s' & Hi').
    destruct (Hall _ _ Hi') as (_ & _ & Hc'). rewrite <- Hc'.
    assert (In (ns', s') l2).
    { rewrite E in Hi'. apply in_app_or in Hi'. destruct Hi' as [Hi'|[[= -> ->]|Hi']]; [|lia|exact Hi'].
      exfalso. rewrite E, map_app in Hfst. cbn [map fst] in Hfst.
      assert (Hlt' : ns' < ns).
      { rewrite <- Hfst in Hs. clear -Hs Hi'. induction l1 as [|[a b] l1 IH]; [contradiction|].
        cbn [map app fst] in Hs. inversion Hs as [|? ? Hs' Hf]; subst. destruct Hi' as [[= -> ->]|Hi']; [|apply IH; assumption].
        rewrite Forall_forall in Hf. apply Hf. apply in_or_app. right; left; reflexivity. }
      lia. }
    specialize (Hgt _ H). cbn [snd] in Hgt. apply Nat.leb_gt in Hgt. exact Hgt.
  - destruct ss as [|[m s] ss']; [discriminate|]. cbn [map fst] in Hfst. injection Hfst as -> Hfst.
    destruct (Hall n0 s (or_introl eq_refl)) as (Ha & _). destruct (Hfin n0 s (or_introl eq_refl)) as [Hf1 Hf2].
    exists n0, s. split; [reflexivity|]. split; [exact Hf1|]. split; [exact Hf2|]. split; [exact Ha|].
    right. split; [reflexivity|]. intros ns' Ha'. destruct (Hex _ Ha') as (s' & Hi').
    destruct (Hall _ _ Hi') as (_ & _ & Hc'). rewrite <- Hc'. specialize (HL _ Hi'). cbn [snd] in HL.
    apply Nat.leb_gt in HL. exact HL.
Qed.
Lemma splits_single g dpix dn mn :
  healpix_ok g dpix (fun ns => ns = Nat.max dn 1) -> NoDup (sg_hpix g) -> region_pixels g dpix <> [] -> dn <= mn ->
  exists ns px, get_pixel_splits g dn mn 1 = Ok (ns, px) /\ ns = Nat.max dn 1 /\
    NoDup px /\ (forall p, In p px <-> exists t, In t (region_pixels g dpix) /\ sg_up g ns t = p).
Proof.
  intros Hg Hnd Hne Hle. unfold get_pixel_splits. cbn [Nat.eqb]. destruct (Nat.ltb_spec mn dn); [lia|].
  destruct (get_subpixels_ok g (Nat.max dn 1) dpix _ Hg eq_refl Hnd Hne) as (r & Hr). rewrite Hr. cbn [bind].
  destruct (get_subpixels_spec _ _ _ _ _ Hg eq_refl Hr) as [Hso Hi2].
  exists (Nat.max dn 1), r. split; [reflexivity|]. split; [reflexivity|]. split; [apply SS_lt_NoDup, Hso|].
  intros p. rewrite Hi2, in_map_iff. split; intros (t & Ha & Hb); exists t; auto.
Qed.

(** ** background reading *)
Lemma bkg_pixel_ranges_all ctr counts : 
  all_indices (bkg_pixel_ranges ctr (ctr + fold_right Nat.add 0 counts) counts) = seq ctr (fold_right Nat.add 0 counts).
Proof.
  revert ctr; induction counts as [|c rest IH]; intros ctr; cbn [bkg_pixel_ranges fold_right]; [reflexivity|].
  destruct (Nat.ltb_spec ctr (ctr + (c + fold_right Nat.add 0 rest))) as [H|H].
  - destruct (Nat.eqb_spec c 0) as [->|Hc]; [apply IH|].
    unfold all_indices. cbn [map List.concat]. fold (all_indices (bkg_pixel_ranges (ctr + c) (ctr + (c + fold_right Nat.add 0 rest)) rest)).
    rewrite Nat.add_assoc, IH. unfold indices_of; cbn [fst snd]. replace (ctr + c - ctr) with c by lia.
    rewrite seq_app. reflexivity.
  - replace (c + fold_right Nat.add 0 rest) with 0 by lia. reflexivity.
Qed.
Lemma bkg_pixelized counts nrows n : all_indices (bkg_ranges true counts nrows n) = seq 0 (fold_right Nat.add 0 counts).
Proof. unfold bkg_ranges. apply (bkg_pixel_ranges_all 0). Qed.
Lemma bkg_rows_none nrows counts n : bkg_ranges false counts nrows n = [].
Proof. unfold bkg_ranges. cbn [bkg_rows_ranges]. rewrite andb_false_r. reflexivity. Qed.
Lemma bkg_rows_none_ind counts nrows n : all_indices (bkg_ranges false counts nrows n) = [].
Proof. rewrite bkg_rows_none. reflexivity. Qed.
Lemma splits_single_fails g dn mn : mn < dn -> get_pixel_splits g dn mn 1 = Err AttributeError.
Proof. intros H. unfold get_pixel_splits. cbn [Nat.eqb]. destruct (Nat.ltb_spec mn dn); [reflexivity|lia]. Qed.
Lemma few_galaxies ngal nproc mx : ngal < nproc -> zred_run_chunks ngal nproc mx = Err ZeroDivisionError.
Proof.
  intros H. unfold zred_run_chunks, zred_chunks.
  replace (default_nperproc ngal nproc mx) with 0; [reflexivity|]. unfold default_nperproc.
  assert (Hf : (Qfloor (inject_Z (Z.of_nat ngal) / (inject_Z (Z.of_nat nproc) - (1 # 10))) < 1)%Z).
  { apply Z.lt_nge. intros Hge.
    assert (Hq : (1 <= inject_Z (Z.of_nat ngal) / (inject_Z (Z.of_nat nproc) - (1 # 10)))%Q).
    { eapply Qle_trans; [|apply Qfloor_le]. rewrite Zle_Qle in Hge. exact Hge. }
    assert (Hpos : (0 < inject_Z (Z.of_nat nproc) - (1 # 10))%Q) by (unfold Qlt, Qminus, Qplus, Qopp; cbn; lia).
    apply (Qmult_le_compat_r _ _ (inject_Z (Z.of_nat nproc) - (1 # 10))) in Hq; [|apply Qlt_le_weak, Hpos].
    rewrite Qmult_1_l in Hq. unfold Qdiv in Hq. rewrite <- Qmult_assoc, (Qmult_comm (/ _)), Qmult_inv_r, Qmult_1_r in Hq.
    - unfold Qle, Qminus, Qplus, Qopp in Hq. cbn in Hq. lia.
    - intros E. rewrite E in Hpos. discriminate. }
  lia.
Qed.
