(** C97-C100: the mask galaxies, the depth around a cluster and the local background. *)
From Coq Require Import QArith Qround Lqa Lia.
From Verif.Base Require Import Py PyLemmas.
From Verif.Model Require Import Util Maskgals.
From Verif.Spec Require Import Maskgals.
From Verif.Proofs Require Import Util Maskgals.
From Coq Require Import Lqa Lia List. Import ListNotations.
Local Open Scope Q_scope.

(** * C97 *)
(** C97: drawing from a density on a grid of n points always gives a grid point, and follows the density to 1/n: the draws up
    to grid point i are exactly those of the random numbers below a threshold that exceeds the share of the density up to i
    by at most 1/n. *)
Theorem C97_distribution : forall pdf, 0 < Qsum pdf -> (forall p, In p pdf -> 0 <= p) ->
  exists threshold : nat -> Q,
    (forall i, (i < length pdf)%nat -> share pdf i < threshold i <= share pdf i + 1 / Qn (length pdf)) /\
    forall u, 0 <= u -> u < 1 ->
      exists k, drawn (map Some pdf) u = Ok k /\ (k < length pdf)%nat /\
        forall i, (i < length pdf)%nat -> ((k <= i)%nat <-> u < threshold i).
Proof.
  intros pdf Hs Hp. exists (thr pdf). split.
  - intros i Hi. apply thr_bounds. lia.
  - intros u H0 H1. apply drawn_spec; assumption.
Qed.
Print Assumptions C97_distribution.
(** Finding: the first grid point is drawn by the random numbers below 1/n also where the density is zero there, as for the
    chi-squared of three or more colors at zero (the weight of these mask galaxies is then zero). *)
Theorem C97_first_refuted : forall k pdf u, (3 <= k)%nat -> 0 < Qsum pdf -> (forall p, In p pdf -> 0 <= p) -> 0 <= u -> u < 1 / Qn (S (length pdf)) ->
  chisq_at_zero k = Some 0 /\ drawn (chisq_at_zero k :: map Some pdf) u = Ok 0%nat.
Proof.
  intros k pdf u Hk Hs Hp H0 H1. assert (C : chisq_at_zero k = Some 0) by (destruct k as [|[|[|k]]]; try lia; reflexivity).
  split; [exact C|]. rewrite C. change (Some 0 :: map Some pdf) with (map Some (0 :: pdf)).
  assert (Hs' : 0 < Qsum (0 :: pdf)) by (cbn [Qsum]; lra).
  assert (N : 0 < Qn (S (length pdf))) by (apply Qn_pos; lia).
  assert (M : 1 <= Qn (S (length pdf))) by (unfold Qn; change 1 with (inject_Z 1); rewrite <- Zle_Qle; lia).
  assert (L1 : 1 / Qn (S (length pdf)) <= 1) by (apply Qle_shift_div_r; lra).
  destruct (drawn_spec (0 :: pdf) u Hs') as (j & Hj & Hl & H); [intros p [<-|Hi]; [lra|auto]|exact H0|lra|].
  rewrite Hj. f_equal. assert (j <= 0)%nat; [|lia]. apply H; [cbn; lia|]. unfold thr, share. cbn [firstn length].
  assert (F : Qfloor (Qsum [0] / Qsum (0 :: pdf) * Qn (S (length pdf))) = 0%Z).
  { transitivity (Qfloor (inject_Z 0)); [|apply Qfloor_Z]. apply Qfloor_comp. cbn [Qsum]. change (inject_Z 0) with 0. unfold Qdiv. ring. }
  rewrite F. exact H1.
Qed.
Print Assumptions C97_first_refuted.
(** Finding: with one color (two magnitudes) the chi-squared density is infinite at zero, and making the mask galaxies stops
    with an IndexError whatever the rest of the density and the random numbers. *)
Theorem C97_one_color_refuted : forall rest u, drawn (chisq_at_zero 1 :: rest) u = Err IndexError.
Proof. intros rest u. unfold drawn, cdfi, chisq_at_zero. rewrite finite_none. cbn [cdfi_inf]. rewrite where_none by reflexivity. reflexivity. Qed.
Print Assumptions C97_one_color_refuted.
Example C97_example : map (drawn (map Some [1; 2; 0; 5])) [0; 1#4; 1#2; 3#4] = [Ok 0%nat; Ok 1%nat; Ok 3%nat; Ok 3%nat].
Proof. vm_compute. reflexivity. Qed.

(** * C98 *)
(** C98: the radial bins of the mask galaxies are evenly spaced, start at or below the radius of richness 3 and end at or above
    the radius of richness 300 (a and b), by less than 0.1 and one step. *)
Theorem C98_bins : forall a b step, a <= b -> 0 < step ->
  exists n, length (radbins a b step) = S n /\
    (forall i, (i < n)%nat -> nth (S i) (radbins a b step) 0 - nth i (radbins a b step) 0 == step) /\
    nth 0 (radbins a b step) 0 <= a /\ b <= nth n (radbins a b step) 0 /\ nth n (radbins a b step) 0 < b + (1 # 10) + step.
Proof.
  intros a b step Hab Hs. destruct (radbins_spec a b step Hab Hs) as (n & L & H & H1 & H2). exists n. split; [exact L|].
  pose proof (minrad_le a). pose proof (maxrad_ge b). pose proof (maxrad_lt b). split; [|split; [|split]].
  - intros i Hi. rewrite (H (S i)) by lia. rewrite (H i) by lia. unfold Qn. rewrite Nat2Z.inj_succ. unfold Z.succ. rewrite inject_Z_plus. change (inject_Z 1) with 1. ring.
  - rewrite (H 0%nat) by lia. change (Qn 0) with 0. lra.
  - rewrite (H n) by lia. lra.
  - rewrite (H n) by lia. lra.
Qed.
Print Assumptions C98_bins.
(** They start at half a megaparsec at the latest. *)
Theorem C98_first : forall a b step, a <= b -> 0 < step -> nth 0 (radbins a b step) 0 <= 1 # 2.
Proof.
  intros a b step Hab Hs. destruct (radbins_spec a b step Hab Hs) as (n & L & H & _). rewrite (H 0%nat) by lia. change (Qn 0) with 0.
  unfold minrad, Qmin2. destruct (Qle_bool (inject_Z (Qfloor (10 * a)) / 10) (1 # 2)) eqn:E; [apply Qle_bool_iff in E|]; lra.
Qed.
Print Assumptions C98_first.
(** a file made with the settings of the run is cut in samples of equal size that use every mask galaxy once *)
Theorem C98_samples_partial : forall (A : Type) ngals nsamples (rows : list A), length rows = (nsamples * ngals)%nat ->
  concat (map (fun k => select ngals k rows) (seq 0 nsamples)) = rows /\ forall k, (k < nsamples)%nat -> length (select ngals k rows) = ngals.
Proof. intros A ngals nsamples rows. apply samples_concat. Qed.
Print Assumptions C98_samples_partial.
(** a file is read if and only if it is there with the current version *)
Theorem C98_read : forall (A : Type) (f : option (mfile A)) rows,
  read_maskgals f = Ok rows <-> exists g, f = Some g /\ mf_version g = 7%Z /\ rows = mf_rows g.
Proof.
  intros A [f|] rows; cbn; [|split; [discriminate|intros (g & Hg & _); discriminate]].
  destruct (Z.eqb_spec (mf_version f) CURRENT) as [E|E].
  - split; [intros [= <-]; exists f; auto|intros (g & [= <-] & _ & ->); reflexivity].
  - split; [discriminate|intros (g & [= <-] & H & _)]. contradiction.
Qed.
Print Assumptions C98_read.
(** Finding: the settings a file was made with are in its header but never compared: a file made for other radii, magnitudes
    or limits is used as it is. *)
Theorem C98_settings_refuted : forall (A : Type) v h h' (rows : list A),
  read_maskgals (Some (mkMF A v h rows)) = read_maskgals (Some (mkMF A v h' rows)).
Proof. reflexivity. Qed.
Print Assumptions C98_settings_refuted.
(** Finding: with more samples configured than a file has, the samples beyond its end are empty and nothing is said. *)
Theorem C98_short_refuted : forall (A : Type) ngals k (rows : list A), (length rows <= k * ngals)%nat -> select ngals k rows = [].
Proof. intros A ngals k rows H. unfold select. rewrite skipn_all2 by exact H. apply firstn_nil. Qed.
Print Assumptions C98_short_refuted.
Example C98_example : length (radbins (4#10) (124#100) (1#10)) = 10%nat /\ select 2 1 [1; 2; 3; 4]%Z = [3; 4]%Z.
Proof. vm_compute. auto. Qed.

(** * C99 *)
(** C99: the local background is the number of galaxies counted over the predicted density times the unmasked area of the
    annulus; so it is x when the annulus has x times the galaxies predicted. *)
Theorem C99_ratio : forall pi a0 a1 scale maxmag gs ns v, 0 < scale ->
  bkg_local pi a0 a1 scale maxmag gs ns = Ok (Some v) ->
  let ring := filter (fun g => Qlt_bool a0 (lg_r g) && Qlt_bool (lg_r g) a1) gs in
  let area := ring_area pi a0 a1 scale (Qn (length (filter lg_mark ring)) / Qn (length ring)) in
  exists p, prediction maxmag gs = Some p /\ v * (p * area) == Qn (length (counted a0 a1 maxmag gs ns)) /\
    forall x, Qn (length (counted a0 a1 maxmag gs ns)) == x * (p * area) -> v == x.
Proof.
  intros pi a0 a1 scale maxmag gs ns v Hs H ring area. unfold bkg_local in H. change (filter (fun g => in_ring a0 a1 (lg_r g)) gs) with ring in H.
  destruct ring as [|g0 t] eqn:ER; [discriminate|]. rewrite <- ER in *. destruct (prediction maxmag gs) as [p|]; [|discriminate].
  set (ar := pi * _ * _) in H.
  assert (EA : area == ar) by (unfold area, ar, ring_area; rewrite ER in *; field; split; [apply Qnot_eq_sym, Qlt_not_eq, Qn_pos; cbn; lia|lra]).
  destruct (Qeq_bool ar 0) eqn:E1; [discriminate|]. destruct (Qeq_bool p 0) eqn:E2; [discriminate|]. cbn [orb] in H. injection H as <-.
  apply Qeq_bool_neq in E1. apply Qeq_bool_neq in E2. exists p. split; [reflexivity|].
  assert (K : Qn (length (counted a0 a1 maxmag gs ns)) / ar / p * (p * area) == Qn (length (counted a0 a1 maxmag gs ns))) by (rewrite EA; field; auto).
  split; [exact K|]. intros x Hx. rewrite Hx, EA. field. auto.
Qed.
Print Assumptions C99_ratio.
(** Counted are the neighbours in the annulus that are brighter than the limit and the depth where they are, and with a chi-squared
    below one that is among those of the mask galaxies; *)
Theorem C99_counted : forall a0 a1 maxmag gs ns n, gs <> [] ->
  (In n (counted a0 a1 maxmag gs ns) <->
   In n ns /\ a0 < ng_r n < a1 /\ ng_mag n < maxmag /\ ng_mag n < ng_depth n /\ exists g, In g gs /\ ng_chisq n < lg_chisq g).
Proof.
  intros a0 a1 maxmag gs ns n G. unfold counted. rewrite filter_In, !andb_true_iff. unfold in_ring. rewrite andb_true_iff, !Qlt_bool_iff.
  assert (M : ng_chisq n < maxQ (map lg_chisq gs) <-> exists g, In g gs /\ ng_chisq n < lg_chisq g).
  { assert (F : forall l x c, c < fold_left Qmax2 l x <-> c < x \/ exists y, In y l /\ c < y).
    { induction l as [|y l IH]; intros x c; cbn [fold_left]; [split; [auto|intros [H|(y & [] & _)]; exact H]|].
      rewrite IH. assert (K : c < Qmax2 x y <-> c < x \/ c < y) by (unfold Qmax2; destruct (Qle_bool x y) eqn:E; [apply Qle_bool_iff in E|apply Qle_bool_false in E]; split; intros H; [right|destruct H|left|destruct H]; lra).
      rewrite K. split.
      - intros [[H|H]|(z & Hz & H)]; [left; exact H|right; exists y; split; [left; reflexivity|exact H]|right; exists z; split; [right; exact Hz|exact H]].
      - intros [H|(z & [<-|Hz] & H)]; [left; left; exact H|left; right; exact H|right; exists z; auto]. }
    destruct gs as [|g0 gs]; [congruence|]. cbn [map maxQ]. rewrite F. split.
    - intros [H|(y & Hy & H)]; [exists g0; split; [left; reflexivity|exact H]|]. apply in_map_iff in Hy. destruct Hy as (g & <- & Hg). exists g. split; [right; exact Hg|exact H].
    - intros (g & [<-|Hg] & H); [left; exact H|right; exists (lg_chisq g); split; [apply in_map, Hg|exact H]]. }
  rewrite M. tauto.
Qed.
Print Assumptions C99_counted.
(** predicted is the mean of sigma_g over the weights for the mask galaxies that are brighter than both, with a finite sigma_g and
    positive weights. *)
Theorem C99_predicted : forall maxmag gs p, prediction maxmag gs = Some p ->
  exists be, be <> [] /\ p * Qn (length be) == Qsum (map (fun sg => fst sg / (lg_cpdf (snd sg) * lg_lpdf (snd sg))) be) /\
  (forall s g, In (s, g) be <-> In g gs /\ lg_sigma g = Some s /\ 0 < lg_cpdf g /\ 0 < lg_lpdf g /\ lg_mag g < maxmag /\ lg_mag g < lg_depth g) /\
  map snd be = filter (bright_enough maxmag) gs.
Proof.
  intros maxmag gs p H. unfold prediction in H. set (l := filter (bright_enough maxmag) gs) in *.
  set (sg := fun g => (match lg_sigma g with Some s => s | None => 0 end, g)). exists (map sg l).
  assert (B : forall g, In g l <-> In g gs /\ bright_enough maxmag g = true) by (intros g; unfold l; apply filter_In).
  split; [destruct l; discriminate|]. split; [|split].
  - assert (W : map (fun x => fst x / (lg_cpdf (snd x) * lg_lpdf (snd x))) (map sg l) = map weight l).
    { rewrite map_map. apply map_ext_in. intros g Hg. apply B in Hg. destruct Hg as [_ Hb]. unfold weight, sg. cbn [fst snd]. destruct (lg_sigma g) eqn:E; [reflexivity|].
      unfold bright_enough in Hb. rewrite E in Hb. rewrite !andb_true_iff in Hb. destruct Hb as [[[[_ X] _] _] _]. discriminate. }
    rewrite W, map_length. destruct l as [|g0 t] eqn:EL; [discriminate|]. assert (EP : p = Qsum (map weight (g0 :: t)) / Qn (length (g0 :: t))) by congruence. rewrite EP, Qmult_comm. apply Qmult_div_r. apply Qnot_eq_sym, Qlt_not_eq, Qn_pos. cbn. lia.
  - intros s g. rewrite in_map_iff. unfold sg. split.
    + intros (g' & E & Hg). injection E as E1 E2. subst g'. apply B in Hg. destruct Hg as [Hg Hb]. unfold bright_enough in Hb. rewrite !andb_true_iff, !Qlt_bool_iff in Hb.
      destruct Hb as [[[[A X] C] D] F]. destruct (lg_sigma g) as [s'|] eqn:E; [|discriminate]. subst s'. auto 8.
    + intros (Hg & E & C & D & A & F). exists g. rewrite E. split; [reflexivity|]. apply B. split; [exact Hg|]. unfold bright_enough. rewrite E. rewrite !andb_true_iff, !Qlt_bool_iff. auto.
  - rewrite map_map. unfold sg. cbn [snd]. apply map_id.
Qed.
Print Assumptions C99_predicted.
(** it is a number when the annulus has unmasked mask galaxies and something is predicted *)
Theorem C99_succeeds : forall pi a0 a1 scale maxmag gs ns g p, 0 < pi -> 0 <= a0 -> a0 < a1 -> 0 < scale ->
  In g gs -> a0 < lg_r g -> lg_r g < a1 -> lg_mark g = true -> prediction maxmag gs = Some p -> ~ p == 0 ->
  exists v, bkg_local pi a0 a1 scale maxmag gs ns = Ok (Some v).
Proof.
  intros pi a0 a1 scale maxmag gs ns g p Hpi H0 H1 Hs Hg R0 R1 Hm Hp Hnz. unfold bkg_local.
  set (ring := filter (fun g => in_ring a0 a1 (lg_r g)) gs).
  assert (Ig : In g ring) by (apply filter_In; split; [exact Hg|]; unfold in_ring; apply andb_true_iff; split; apply Qlt_bool_iff; assumption).
  assert (Im : In g (filter lg_mark ring)) by (apply filter_In; auto).
  destruct ring as [|g0 t] eqn:ER; [contradiction|]. rewrite <- ER in *. rewrite Hp.
  assert (A : 0 < pi * (a1 / scale * (a1 / scale) - a0 / scale * (a0 / scale)) * (Qn (length (filter lg_mark ring)) / Qn (length ring))).
  { apply Qmult_lt_0_compat; [apply Qmult_lt_0_compat; [exact Hpi|]|].
    - assert (E : a1 / scale * (a1 / scale) - a0 / scale * (a0 / scale) == (a1 - a0) * (a1 + a0) / (scale * scale)) by (field; lra). rewrite E.
      apply Qlt_shift_div_l; [apply Qmult_lt_0_compat; assumption|]. rewrite Qmult_0_l. apply Qmult_lt_0_compat; lra.
    - apply Qlt_shift_div_l; [apply Qn_pos; rewrite ER; cbn; lia|]. rewrite Qmult_0_l. apply Qn_pos. destruct (filter lg_mark ring); [contradiction|cbn; lia]. }
  set (ar := pi * _ * _) in *. assert (E1 : Qeq_bool ar 0 = false) by (apply not_true_iff_false; intros K; apply Qeq_bool_iff in K; lra).
  assert (E2 : Qeq_bool p 0 = false) by (apply not_true_iff_false; intros K; apply Qeq_bool_iff in K; contradiction).
  rewrite E1, E2. eexists. reflexivity.
Qed.
Print Assumptions C99_succeeds.
(** Finding: the weights that turn mask galaxies into a prediction are not normalized (the luminosity function is not, and the
    chi-squared density is only over the chi-squared allowed): the mean prediction is the total over the grid divided by the
    total of the weights, so every local background is off by that factor, and right only if it is 1. *)
Theorem C99_weights_refuted : forall cells delta, 0 < delta -> cells <> [] ->
  (forall g, In g cells -> 0 < lg_cpdf g /\ 0 < lg_lpdf g /\ lg_sigma g <> None) ->
  let F := Qsum (map (fun g => lg_cpdf g * lg_lpdf g * delta) cells) in
  let total := Qsum (map (fun g => sigma_of g * delta) cells) in
  expected_weight cells * F == total /\ (~ total == 0 -> (expected_weight cells == total <-> F == 1)).
Proof.
  intros cells delta Hd Hne H F total. set (F0 := Qsum (map (fun g => lg_cpdf g * lg_lpdf g) cells)).
  assert (P : forall l, (forall g, In g l -> In g cells) -> l <> [] -> 0 < Qsum (map (fun g => lg_cpdf g * lg_lpdf g) l)).
  { induction l as [|g l IH]; intros Hl Hn; [congruence|]. cbn [map Qsum]. destruct (H g (Hl g (or_introl eq_refl))) as (C1 & C2 & _).
    assert (0 < lg_cpdf g * lg_lpdf g) by (apply Qmult_lt_0_compat; assumption). destruct l as [|g' l]; [cbn [map Qsum]; lra|].
    assert (0 < Qsum (map (fun g => lg_cpdf g * lg_lpdf g) (g' :: l))) by (apply IH; [intros; apply Hl; right; assumption|discriminate]). lra. }
  assert (PF : 0 < F0) by (apply P; auto).
  assert (EF : F == F0 * delta).
  { unfold F, F0. generalize cells. induction cells0 as [|g l IH]; cbn [map Qsum]; [ring|]. rewrite IH. ring. }
  assert (EW : expected_weight cells * F0 * delta == total).
  { unfold expected_weight, total. fold F0.
    assert (K : forall l, (forall g, In g l -> In g cells) -> Qsum (map (fun g => lg_cpdf g * lg_lpdf g / F0 * weight g) l) * F0 * delta == Qsum (map (fun g => sigma_of g * delta) l)).
    { induction l as [|g l IH]; intros Hl; cbn [map Qsum]; [ring|]. rewrite <- IH by (intros; apply Hl; right; assumption).
      destruct (H g (Hl g (or_introl eq_refl))) as (C1 & C2 & C3). unfold weight, sigma_of. destruct (lg_sigma g) as [s|]; [|congruence]. field. repeat split; lra. }
    apply K. auto. }
  assert (E1 : expected_weight cells * F == total) by (rewrite EF, <- EW; ring). split; [exact E1|].
  intros Ht. split; intros K.
  - assert (total * F == total * 1) by (rewrite Qmult_1_r; rewrite <- E1 at 2; rewrite K; reflexivity).
    apply Qmult_inj_l in H0; assumption.
  - rewrite K, Qmult_1_r in E1. exact E1.
Qed.
Print Assumptions C99_weights_refuted.
(** Finding: with mask galaxies made for a smaller annulus there are none in the configured one, and the run stops with a
    ZeroDivisionError. *)
Theorem C99_annulus_refuted : forall pi a0 a1 scale maxmag gs ns, (forall g, In g gs -> lg_r g <= a0) ->
  bkg_local pi a0 a1 scale maxmag gs ns = Err ZeroDivisionError.
Proof.
  intros pi a0 a1 scale maxmag gs ns H. unfold bkg_local.
  assert (E : filter (fun g => in_ring a0 a1 (lg_r g)) gs = []); [|rewrite E; reflexivity].
  induction gs as [|g t IH]; [reflexivity|]. cbn [filter]. unfold in_ring at 1. assert (F : Qlt_bool a0 (lg_r g) = false) by (apply Qlt_bool_false, H; left; reflexivity).
  rewrite F. cbn [andb]. apply IH. intros; apply H; right; assumption.
Qed.
Print Assumptions C99_annulus_refuted.
Example C99_example :
  let g := mkLG (Some 6) 2 1 18 22 (5#2) true 1 in
  let gs := [g; mkLG (Some 3) 1 1 18 22 (5#2) false 20; mkLG None 1 1 18 22 1 true 3] in
  let ns := [mkNG (5#2) 18 5 22; mkNG (5#2) 21 5 22; mkNG 1 18 5 22] in
  exists v, bkg_local (22#7) 2 3 (22#7) 20 gs ns = Ok (Some v) /\ v == (22#7) * (2#15).
Proof. eexists. split; [reflexivity|]. vm_compute. reflexivity. Qed.

(** * C100 *)
(** C100: the depth at the mask galaxies: where the map has a depth it is used; elsewhere each of the limiting magnitude,
    exposure time and 50 per cent depth is set within the range of those of the galaxies with a depth; if none has one, all get
    the values of a bad region. *)
Theorem C100_depth : forall unseen ps i p, unseen < 0 -> nth_error ps i = Some p ->
  let val q := if mp_in q then mkDV (mp_lim q) (mp_exp q) (mp_m50 q) else mkDV unseen (mp_exp0 q) (mp_m500 q) in
  let known q := mp_in q = true /\ 0 <= mp_lim q in
  exists v, nth_error (calc_maskdepth unseen ps) i = Some v /\
    ((exists q, In q ps /\ known q) ->
       (known p -> v = mkDV (mp_lim p) (mp_exp p) (mp_m50 p)) /\
       (~ known p -> forall f, (f = dv_lim \/ f = dv_exp \/ f = dv_m50) -> forall lo hi,
          (forall q, In q ps -> known q -> lo <= f (val q) <= hi) -> lo <= f v <= hi)) /\
    ((forall q, In q ps -> ~ known q) -> v = mkDV 1 1000 0).
Proof.
  intros unseen ps i p Hu Hp val known. destruct (maskdepth_nth unseen ps i p Hp) as (v & Hv & H1 & H2). exists v. split; [exact Hv|].
  assert (B : forall q, Qlt_bool (dv_lim (at_pos unseen q)) 0 = false <-> known q).
  { intros q. rewrite Qlt_bool_false. unfold at_pos, known. destruct (mp_in q); cbn [dv_lim]; split; intros K.
    - auto. - apply K. - lra. - destruct K; discriminate. }
  assert (B' : forall q, Qlt_bool (dv_lim (at_pos unseen q)) 0 = true <-> ~ known q) by (intros q; rewrite <- B; symmetry; apply not_false_iff_true).
  split.
  - intros (q & Hq & Kq). destruct H1 as [H1 H1']; [exists q; split; [exact Hq|apply B, Kq]|]. split.
    + intros Kp. rewrite H1 by (apply B, Kp). unfold at_pos. destruct Kp as [-> _]. reflexivity.
    + intros Kp f Hf lo hi H. apply (H1' (proj2 (B' p) Kp) f Hf lo hi). intros q' Hq' Kq'. apply (H q' Hq'), B, Kq'.
  - intros H. apply H2. intros q Hq. apply B', H, Hq.
Qed.
Print Assumptions C100_depth.
(** and a cluster is rejected for its depth when no mask galaxy has one, and not when one has and all that have are deeper than
    magnitude 1 *)
Theorem C100_rejected : forall unseen ps, unseen < 0 -> ps <> [] ->
  let known q := mp_in q = true /\ 0 <= mp_lim q in
  ((forall q, In q ps -> ~ known q) -> bad_depth (calc_maskdepth unseen ps) = true) /\
  ((exists q, In q ps /\ known q) -> (forall q, In q ps -> known q -> 1 < mp_lim q) -> bad_depth (calc_maskdepth unseen ps) = false).
Proof.
  intros unseen ps Hu Hne known.
  assert (NE : map dv_lim (calc_maskdepth unseen ps) <> []).
  { intros K. apply map_eq_nil in K. pose proof (maskdepth_len unseen ps) as L. rewrite K in L. destruct ps; [congruence|discriminate]. }
  assert (EL : forall x, In x (map dv_lim (calc_maskdepth unseen ps)) -> exists i p v, nth_error ps i = Some p /\ nth_error (calc_maskdepth unseen ps) i = Some v /\ x = dv_lim v).
  { intros x Hx. apply in_map_iff in Hx. destruct Hx as (v & <- & Hv). apply In_nth_error in Hv. destruct Hv as (i & Hi).
    assert (i < length ps)%nat by (rewrite <- (maskdepth_len unseen ps); apply nth_error_Some; congruence).
    destruct (nth_error ps i) as [p|] eqn:Ep; [|apply nth_error_None in Ep; lia]. exists i, p, v. auto. }
  split.
  - intros H. unfold bad_depth. apply Qle_bool_iff. apply (median_within _ 1 1 NE). intros x Hx. destruct (EL x Hx) as (i & p & v & Hp & Hv & ->).
    destruct (C100_depth unseen ps i p Hu Hp) as (v' & Hv' & _ & H2). assert (v' = v) by congruence. subst v'. rewrite (H2 H). cbn [dv_lim]. lra.
  - intros Hex H. unfold bad_depth. apply not_true_iff_false. intros K. apply Qle_bool_iff in K.
    destruct (median_in _ NE) as (a & b & Ha & Hb & E).
    assert (G : forall x, In x (map dv_lim (calc_maskdepth unseen ps)) -> 1 < x).
    { intros x Hx. destruct (EL x Hx) as (i & p & v & Hp & Hv & ->). destruct (C100_depth unseen ps i p Hu Hp) as (v' & Hv' & H1 & _).
      assert (v' = v) by congruence. subst v'. destruct (H1 Hex) as [A1 A2].
      assert (D : known p \/ ~ known p).
      { unfold known. destruct (mp_in p); [|right; intros [K' _]; discriminate]. destruct (Qlt_le_dec (mp_lim p) 0); [right; intros [_ K']; lra|left; auto]. }
      destruct D as [D|D]; [rewrite (A1 D); cbn [dv_lim]; apply H; [eapply nth_error_In, Hp|exact D]|].
      assert (LB : exists lo, 1 < lo /\ forall q, In q ps -> known q -> lo <= mp_lim q).
      { clear - H. revert H. induction ps as [|q t IH]; intros H; [exists 2; split; [lra|intros q []]|].
        destruct IH as (lo & L1 & L2); [intros q' Hq'; apply H; right; exact Hq'|].
        destruct (Qlt_le_dec 1 (mp_lim q)) as [G1|G1].
        - destruct (Qlt_le_dec lo (mp_lim q)) as [G2|G2].
          + exists lo. split; [exact L1|]. intros q' [<-|Hq'] Kq'; [lra|auto].
          + exists (mp_lim q). split; [exact G1|]. intros q' [<-|Hq'] Kq'; [lra|]. specialize (L2 q' Hq' Kq'). lra.
        - exists lo. split; [exact L1|]. intros q' [<-|Hq'] Kq'; [|auto]. specialize (H q (or_introl eq_refl) Kq'). lra. }
      destruct LB as (lo & L1 & L2).
      assert (UB : exists hi, forall q, In q ps -> known q -> mp_lim q <= hi).
      { clear. induction ps as [|q t (hi & IH)]; [exists 0; intros q []|]. destruct (Qlt_le_dec hi (mp_lim q)) as [G|G]; [exists (mp_lim q)|exists hi]; intros q' [<-|Hq'] Kq'; try lra; specialize (IH q' Hq' Kq'); lra. }
      destruct UB as (hi & UB). assert (lo <= dv_lim v <= hi); [|lra]. apply (A2 D dv_lim (or_introl eq_refl) lo hi).
      intros q Hq Kq. destruct Kq as [Kq1 Kq2]. rewrite Kq1. cbn [dv_lim]. split; [apply L2|apply UB]; unfold known; auto. }
    pose proof (G a Ha). pose proof (G b Hb). assert (1 < medianQ (map dv_lim (calc_maskdepth unseen ps))) by (rewrite E; apply Qlt_shift_div_l; lra). lra.
Qed.
Print Assumptions C100_rejected.
Example C100_example : exists v, nth_error (calc_maskdepth (-(1000)) [mkMP true 22 100 21 0 0; mkMP true (-(1000)) 0 0 0 0; mkMP true 24 100 23 0 0; mkMP false 0 0 0 9 9]) 1 = Some v /\ dv_lim v == 23 /\
  bad_depth (calc_maskdepth (-(1000)) [mkMP true (-(1000)) 0 0 0 0]) = true.
Proof. eexists. split; [reflexivity|]. split; [vm_compute; reflexivity|vm_compute; reflexivity]. Qed.
