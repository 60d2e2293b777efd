(** C94-C96: how far and how deep the runners look around a cluster. *)
From Coq Require Import Reals Lra Lia.
From Verif.Base Require Import Py.
From Verif.Model Require Import BkgGen Radii.
From Verif.Proofs Require Import Radii.
Local Open Scope R_scope.

(** the shipped percolation settings *)
Definition defaults (lmask : option R) : settings := mkSet 1 (2/10) true (15/10) (2/10) 0 (3/10) lmask (2/10) false 0.

(** * C94 *)
(** C94: a runner starts whenever percolation_lmask is set, *)
Theorem C94_succeeds : forall s lm, st_lmask s = Some lm -> exists ra, setup s = Ok ra.
Proof. exact setup_ok. Qed.
Print Assumptions C94_succeeds.
(** and its search radius reaches the radius of every cluster of richness up to 300, *)
Theorem C94_radius : forall s ra lam, setup s = Ok ra -> 0 < st_r0 s -> 0 <= st_beta s -> 0 < lam <= 300 ->
  st_r0 s * Rpower (lam / 100) (st_beta s) <= ra_max ra.
Proof. exact radius_covered. Qed.
Print Assumptions C94_radius.
(** the outer edge of the annulus of the local background, *)
Theorem C94_annulus : forall s ra, setup s = Ok ra -> st_local s = true -> st_annulus s <= ra_max ra.
Proof. intros s ra H. apply (setup_max s ra H). Qed.
Print Assumptions C94_annulus.
(** and the radius inside of which members are masked, when that does not depend on redshift and is constant whenever the
    richness radius is. *)
Theorem C94_mask_partial : forall s ra lam z, setup s = Ok ra ->
  0 < st_r0 s -> 0 <= st_beta s -> 0 < st_prm0 s -> 0 <= st_prmb s -> 0 < lam <= 300 -> 0 < 1 + st_zpivot s -> 0 < 1 + z ->
  st_gamma s = 0 -> (st_beta s = 0 -> st_prmb s = 0) -> r_mask s ra lam z <= ra_max ra.
Proof.
  intros s ra lam z H H0 Hb Hm Hmb Hl Hp Hz Hg Hbb. destruct (setup_max s ra H) as (E1 & E2 & _).
  apply mask_covered; try assumption; rewrite ?E1, ?E2; destruct (st_use_rmask s); auto.
Qed.
Print Assumptions C94_mask_partial.
(** Finding: with the shipped settings the mask radius of every cluster of richness above 300 is beyond the galaxies that
    were looked up, so members between the two radii are not masked. *)
Theorem C94_rich_refuted : forall lm ra lam z, setup (defaults (Some lm)) = Ok ra -> 300 < lam -> -1 < z -> ra_max ra < r_mask (defaults (Some lm)) ra lam z.
Proof.
  intros lm ra lam z H Hl Hz. unfold setup, defaults in H. cbn [st_lmask st_use_rmask st_prm0 st_prmb st_beta st_r0 st_local st_lvalref andb] in H.
  destruct (Req_EM_T (2/10) 0) as [E|_]; [lra|]. injection H as <-. unfold r_mask, r_lambda, defaults. cbn [ra_max ra_m0 ra_mb st_gamma st_zpivot st_r0 st_beta].
  rewrite pow_one by (apply Rdiv_lt_0_compat; lra). rewrite Rmult_1_r.
  assert (P : Rpower (300/100) (2/10) < Rpower (lam/100) (2/10)) by (apply pow_lt; lra). pose proof (pow_pos (300/100) (2/10)).
  rcase (1 * Rpower (300/100) (2/10)) (15/10 * Rpower (300/100) (2/10)); rcase (15/10 * Rpower (lam/100) (2/10)) (1 * Rpower (lam/100) (2/10)); lra.
Qed.
Print Assumptions C94_rich_refuted.
(** Finding: the search radius ignores the redshift dependence of the mask radius: with any positive percolation_rmask_gamma,
    at every redshift above the pivot a cluster of richness 300 has a mask radius beyond the search radius. *)
Theorem C94_gamma_refuted : forall lm g ra z, 0 < g -> 3/10 < z ->
  let s := mkSet 1 (2/10) true (15/10) (2/10) g (3/10) (Some lm) (2/10) false 0 in
  setup s = Ok ra -> ra_max ra < r_mask s ra 300 z.
Proof.
  intros lm g ra z Hg Hz s H. unfold setup, s in H. cbn [st_lmask st_use_rmask st_prm0 st_prmb st_beta st_r0 st_local st_lvalref andb] in H.
  destruct (Req_EM_T (2/10) 0) as [E|_]; [lra|]. injection H as <-. unfold r_mask, r_lambda, s. cbn [ra_max ra_m0 ra_mb st_gamma st_zpivot st_r0 st_beta].
  assert (P : 1 < Rpower ((1 + z) / (1 + 3/10)) g).
  { rewrite <- (one_pow g) at 1. apply pow_lt; lra. }
  pose proof (pow_pos (300/100) (2/10)) as Q. set (q := Rpower (300/100) (2/10)) in *. set (p := Rpower _ g) in *.
  assert (K : 15/10 * q < 15/10 * q * p) by (rewrite <- (Rmult_1_r (15/10 * q)) at 1; apply Rmult_lt_compat_l; lra).
  rcase (1 * q) (15/10 * q); rcase (15/10 * q * p) (1 * q); lra.
Qed.
Print Assumptions C94_gamma_refuted.
(** Finding: with a constant richness radius (beta 0) the search goes to 1.2 times the mask radius of richness 100, also when the
    mask radius grows with richness: with the shipped exponent 0.2 it falls short at richness 300. *)
Theorem C94_beta0_refuted : forall lm ra z, -1 < z ->
  let s := mkSet 1 0 true (15/10) (2/10) 0 (3/10) (Some lm) (2/10) false 0 in
  setup s = Ok ra -> ra_max ra < r_mask s ra 300 z.
Proof.
  intros lm ra z Hz s H. unfold setup, s in H. cbn [st_lmask st_use_rmask st_prm0 st_prmb st_beta st_r0 st_local st_lvalref andb] in H.
  destruct (Req_EM_T 0 0) as [_|E]; [|lra]. injection H as <-. unfold r_mask, r_lambda, s. cbn [ra_max ra_m0 ra_mb st_gamma st_zpivot st_r0 st_beta].
  rewrite pow_one by (apply Rdiv_lt_0_compat; lra). rewrite pow_one by lra. rewrite !Rmult_1_r.
  assert (P : 12/10 < Rpower (300/100) (2/10)).
  { apply Rnot_le_lt. intros Hc. pose proof (pow_pos (300/100) (2/10)) as Q. set (q := Rpower (300/100) (2/10)) in *.
    assert (E5 : q ^ 5 = 3).
    { unfold q. rewrite <- Rpower_pow by apply pow_pos. rewrite Rpower_mult. cbn [INR]. replace (2/10 * (1 + 1 + 1 + 1 + 1)) with 1 by lra. rewrite Rpower_1; lra. }
    assert (L : q ^ 5 <= (12/10) ^ 5) by (apply pow_incr; lra). rewrite E5 in L. cbn [pow] in L. lra. }
  rcase (12/10) (12/10 * (15/10)); rcase (15/10 * Rpower (300/100) (2/10)) 1; lra.
Qed.
Print Assumptions C94_beta0_refuted.
(** Finding: percolation_lmask has no default; a configuration without it makes every runner stop with a TypeError. *)
Theorem C94_lmask_refuted : forall s, st_lmask s = None -> setup s = Err TypeError.
Proof. intros s H. unfold setup. rewrite H. reflexivity. Qed.
Print Assumptions C94_lmask_refuted.
(** The depth of the mask is the one set, or the reference depth when that is negative. *)
Theorem C94_lmask : forall s ra lm, setup s = Ok ra -> st_lmask s = Some lm ->
  (lm < 0 -> ra_lmask ra = st_lvalref s) /\ (0 <= lm -> ra_lmask ra = lm).
Proof.
  intros s ra lm H E. unfold setup in H. rewrite E in H. destruct (Req_EM_T (st_beta s) 0); injection H as <-; cbn [ra_lmask];
    (split; intros L; [rewrite (proj2 (Rltb_iff lm 0) L)|rewrite (proj2 (Rltb_not lm 0) L)]; reflexivity).
Qed.
Print Assumptions C94_lmask.
(** The search is done at the first redshift of the cluster: when the redshift changes, it reaches the search radius times the
    ratio of the scales, so all galaxies inside of the search radius are found if the scale (Mpc per degree) does not shrink. *)
Theorem C94_moved_partial : forall radius scale scale' dist, 0 < scale -> 0 < scale' ->
  (is_neighbor radius scale dist = true <-> neighbor_r scale' dist < radius * (scale' / scale)) /\
  (scale <= scale' -> 0 < radius -> neighbor_r scale' dist < radius -> is_neighbor radius scale dist = true).
Proof.
  intros radius sc sc' d H H'. unfold is_neighbor, neighbor_r. rewrite Rltb_iff.
  assert (A : d < radius / sc <-> d * sc' < radius * (sc' / sc)).
  { split; intros K.
    - replace (radius * (sc' / sc)) with (radius / sc * sc') by (field; lra). apply Rmult_lt_compat_r; assumption.
    - apply Rmult_lt_reg_r with sc'; [exact H'|]. replace (radius / sc * sc') with (radius * (sc' / sc)) by (field; lra). exact K. }
  split; [exact A|]. intros Hs Hr K. apply A. apply Rlt_le_trans with (1 := K). rewrite <- (Rmult_1_r radius) at 1. apply Rmult_le_compat_l; [lra|].
  apply Rmult_le_reg_r with sc; [exact H|]. unfold Rdiv. rewrite Rmult_assoc, Rinv_l by lra. lra.
Qed.
Print Assumptions C94_moved_partial.
(** Finding: when a cluster moves to a lower redshift (smaller scale), galaxies inside of the search radius are missing. *)
Theorem C94_moved_refuted : forall radius scale scale', 0 < radius -> 0 < scale' -> scale' < scale ->
  exists dist, neighbor_r scale' dist < radius /\ is_neighbor radius scale dist = false.
Proof.
  intros radius sc sc' Hr H' H. exists (radius / sc). unfold neighbor_r, is_neighbor. split; [|apply Rltb_not; lra].
  apply Rmult_lt_reg_r with sc; [lra|]. replace (radius / sc * sc' * sc) with (radius * sc') by (field; lra). apply Rmult_lt_compat_l; lra.
Qed.
Print Assumptions C94_moved_refuted.
Example C94_example : exists ra, setup (defaults (Some (-1))) = Ok ra /\ ra_lmask ra = 2/10 /\ ra_m0 ra = 15/10.
Proof.
  destruct (setup_ok (defaults (Some (-1))) (-1) eq_refl) as (ra & E). exists ra. split; [exact E|].
  destruct (setup_max _ _ E) as (E1 & _). split; [|exact E1]. unfold setup, defaults in E. cbn [st_lmask st_use_rmask st_prm0 st_prmb st_beta st_r0 st_local st_lvalref andb] in E.
  destruct (Req_EM_T (2/10) 0); injection E as <-; cbn [ra_lmask]; rcase (-1) 0; lra.
Qed.

(** * C95 *)
(** C95: percolation looks at least as deep as the depth of the mask (percolation_lmask, or lval_reference when it is
    negative), as the luminosity limit of the members (percolation_memlum) and as the reference luminosity. *)
Theorem C95_percolation : forall lval memlum lm, 1/100 <= lval ->
  exists l, limlum_percolation lval memlum (Some lm) = Ok l /\ l <= lval /\
    (0 < lm -> l <= lm) /\ (forall m, memlum = Some m -> 0 < m -> l <= m).
Proof.
  intros lval memlum lm Hv. unfold limlum_percolation. eexists. split; [reflexivity|].
  set (l1 := if Rltb (1/10) lval then _ else _).
  assert (H1 : l1 <= lval).
  { unfold l1, limlum0. pose proof (Rmax_lub (lval - 1/10) (1/100) lval ltac:(lra) Hv). rcase (1/10) lval; [rcase (1/10) (Rmax (lval - 1/10) (1/100)); lra|lra]. }
  clearbody l1. set (l2 := with_memlum memlum lval l1).
  assert (H2 : l2 <= l1 /\ forall m, memlum = Some m -> 0 < m -> l2 <= m).
  { unfold l2, with_memlum. destruct memlum as [m|]; [|split; [lra|discriminate]]. rcase 0 m; cbn [andb].
    - rcase m lval; [rcase m l1|]; split; try lra; intros m0 [= <-] _; lra.
    - split; [lra|]. intros m0 [= <-]. lra. }
  destruct H2 as [H2 H2']. clearbody l2. unfold with_lmask.
  assert (H3 : (if Rltb 0 lm then if Rltb lm l2 then lm else l2 else l2) <= l2) by (rcase 0 lm; [rcase lm l2|]; lra).
  split; [lra|]. split; [intros; rcase 0 lm; [rcase lm l2|]; lra|]. intros m E Hm. specialize (H2' m E Hm). lra.
Qed.
Print Assumptions C95_percolation.
(** and so does a run on a given catalog *)
Theorem C95_runcat : forall lval memlum lmask, 1/100 <= lval ->
  let l := limlum_runcat lval memlum lmask in
  l <= lval /\ (forall m, lmask = Some m -> 0 < m -> l <= m) /\ (forall m, memlum = Some m -> 0 < m -> l <= m).
Proof.
  intros lval memlum lmask Hv. unfold limlum_runcat. cbv zeta.
  assert (H1 : limlum0 lval <= lval) by (unfold limlum0; apply Rmax_lub; lra).
  set (l1 := limlum0 lval) in *. clearbody l1. set (l2 := with_memlum memlum lval l1).
  assert (H2 : l2 <= l1 /\ forall m, memlum = Some m -> 0 < m -> l2 <= m).
  { unfold l2, with_memlum. destruct memlum as [m|]; [|split; [lra|discriminate]]. rcase 0 m; cbn [andb].
    - rcase m lval; [rcase m l1|]; split; try lra; intros m0 [= <-] _; lra.
    - split; [lra|]. intros m0 [= <-]. lra. }
  destruct H2 as [H2 H2']. clearbody l2. destruct lmask as [lm|].
  - unfold with_lmask.
    assert (H3 : (if Rltb 0 lm then if Rltb lm l2 then lm else l2 else l2) <= l2) by (rcase 0 lm; [rcase lm l2|]; lra).
    split; [lra|]. split; [intros m [= <-] Hm; rcase 0 lm; [rcase lm l2|]; lra|]. intros m E Hm. specialize (H2' m E Hm). lra.
  - split; [lra|]. split; [discriminate|]. exact H2'.
Qed.
Print Assumptions C95_runcat.
(** a smaller luminosity is a fainter magnitude, so looking to luminosity l finds everything brighter than the limit of m >= l *)
Theorem C95_magnitude : forall mstar l m, 0 < l -> l <= m -> mag_of mstar m <= mag_of mstar l.
Proof.
  intros mstar l m Hl Hm. unfold mag_of. assert (0 < ln 10) by (rewrite <- ln_1; apply ln_increasing; lra).
  assert (ln l <= ln m) by (destruct Hm as [Hm| ->]; [left; apply ln_increasing; assumption|lra]).
  assert (ln l / ln 10 <= ln m / ln 10) by (unfold Rdiv; apply Rmult_le_compat_r; [left; apply Rinv_0_lt_compat; assumption|assumption]). lra.
Qed.
Print Assumptions C95_magnitude.
(** the members are cut at their radius exactly if percolation_memradius is set and above one *)
Theorem C95_memradius : forall memradius memlum, fst (member_cuts memradius memlum) = true <-> exists r, memradius = Some r /\ 1 < r.
Proof.
  intros [r|] memlum; cbn [member_cuts fst].
  - rewrite Rltb_iff. split; [eauto|]. intros (r' & [= <-] & H). exact H.
  - split; [discriminate|]. intros (r & H & _). discriminate.
Qed.
Print Assumptions C95_memradius.
(** Finding: percolation_memlum only deepens the search; the cut on the luminosity of the members that it stands for is never
    switched on, whatever its value. *)
Theorem C95_memlum_refuted : forall memradius memlum, snd (member_cuts memradius memlum) = false.
Proof. reflexivity. Qed.
Print Assumptions C95_memlum_refuted.
(** Finding: percolation stops with a TypeError when percolation_lmask is not set. *)
Theorem C95_lmask_refuted : forall lval memlum, limlum_percolation lval memlum None = Err TypeError.
Proof. reflexivity. Qed.
Print Assumptions C95_lmask_refuted.
Example C95_example : limlum_percolation (2/10) (Some (5/100)) (Some (-1)) = Ok (5/100) /\ limlum_runcat (2/10) None (Some (2/100)) = 2/100.
Proof.
  assert (E : limlum0 (2/10) = 1/10) by (unfold limlum0; rewrite Rmax_left; lra). split.
  - unfold limlum_percolation, with_memlum, with_lmask. rewrite E. rcase (1/10) (2/10); [|lra]. rcase (1/10) (1/10); [lra|].
    rcase 0 (5/100); [|lra]. rcase (5/100) (2/10); [|lra]. rcase (5/100) (1/10); [|lra]. cbn [andb]. rcase 0 (-1); [lra|reflexivity].
  - unfold limlum_runcat, with_memlum, with_lmask. rewrite E. rcase 0 (2/100); [|lra]. rcase (2/100) (1/10); [reflexivity|lra].
Qed.

(** * C96 *)
(** C96: the border of a pixel is wide enough for percolation: with [d] any distance on the sky (triangle inequality), if two
    clusters (richness up to 300, mask radius not depending on redshift, scales not below the one of the lowest redshift)
    have a galaxy in common inside of their mask radii, then every galaxy inside of the mask radius of the second is within
    the border of the first. *)
Theorem C96_border_partial : forall (P : Type) (d : P -> P -> R) s ra scale0 c1 c2 l1 l2 z1 z2 s1 s2 g g',
  (forall x y z, d x z <= d x y + d y z) -> (forall x y, d x y = d y x) ->
  setup s = Ok ra -> st_use_rmask s = true -> 0 < st_r0 s -> 0 <= st_beta s -> st_r0 s <= st_prm0 s -> st_beta s <= st_prmb s ->
  0 < l1 <= 300 -> 0 < l2 <= 300 -> 0 < 1 + st_zpivot s -> 0 < 1 + z1 -> 0 < 1 + z2 -> st_gamma s = 0 ->
  0 < scale0 -> scale0 <= s1 -> scale0 <= s2 ->
  d c1 g * s1 < r_mask s ra l1 z1 -> d c2 g * s2 < r_mask s ra l2 z2 -> d c2 g' * s2 < r_mask s ra l2 z2 ->
  d c1 g' < border s scale0.
Proof.
  intros P d s ra sc0 c1 c2 l1 l2 z1 z2 s1 s2 g g' Tri Sym H Hu H0 Hb Hr Hbb L1 L2 Hp Z1 Z2 Hg S0 S1 S2 D1 D2 D3.
  destruct (setup_max s ra H) as (E1 & E2 & _). rewrite Hu in E1, E2.
  set (B := st_prm0 s * Rpower (300/100) (st_prmb s)).
  assert (M : forall l z, 0 < l <= 300 -> 0 < 1 + z -> r_mask s ra l z <= B).
  { intros l z Hl Hz. unfold r_mask, r_lambda, B. rewrite E1, E2, Hg, pow_one by (apply Rdiv_lt_0_compat; lra). rewrite Rmult_1_r.
    assert (A : st_prm0 s * Rpower (l/100) (st_prmb s) <= st_prm0 s * Rpower (300/100) (st_prmb s)) by (apply Rmult_le_compat_l; [lra|]; apply pow_le; lra).
    destruct (Rltb _ _); [|exact A]. apply Rmult_le_compat; try lra; [left; apply pow_pos|].
    apply Rle_trans with (Rpower (300/100) (st_beta s)); [apply pow_le; lra|apply Rle_Rpower; lra]. }
  assert (Bp : 0 < B) by (unfold B; apply Rmult_lt_0_compat; [lra|apply pow_pos]).
  assert (K : forall a b sc r, r <= B -> sc0 <= sc -> d a b * sc < r -> d a b < B / sc0).
  { intros a b sc r Hr' Hs Hd. apply Rmult_lt_reg_r with sc0; [exact S0|]. unfold Rdiv. rewrite Rmult_assoc, Rinv_l, Rmult_1_r by lra.
    destruct (Rle_lt_dec 0 (d a b)) as [Hn|Hn].
    - assert (d a b * sc0 <= d a b * sc) by (apply Rmult_le_compat_l; assumption). lra.
    - assert (d a b * sc0 < 0 * sc0) by (apply Rmult_lt_compat_r; assumption). lra. }
  pose proof (K c1 g s1 _ (M l1 z1 L1 Z1) S1 D1). pose proof (K c2 g s2 _ (M l2 z2 L2 Z2) S2 D2). pose proof (K c2 g' s2 _ (M l2 z2 L2 Z2) S2 D3).
  pose proof (Tri c1 g g'). pose proof (Tri g c2 g'). rewrite (Sym g c2) in *.
  assert (Eb : border s sc0 = 105/100 * (3 * (B / sc0))) by (unfold border, B; field; lra). rewrite Eb.
  assert (0 < B / sc0) by (apply Rdiv_lt_0_compat; assumption). lra.
Qed.
Print Assumptions C96_border_partial.
(** Finding: with the shipped settings the border is too narrow for rich clusters: on a line, two clusters of richness 400 at
    the lowest redshift have a galaxy in common inside of their mask radii, and a galaxy of the second is as far from the
    first as the border. *)
Theorem C96_rich_refuted : forall lm ra scale0, 0 < scale0 -> setup (defaults (Some lm)) = Ok ra ->
  exists c1 c2 g g' : R, let r := r_mask (defaults (Some lm)) ra 400 0 in
    Rabs (c1 - g) * scale0 < r /\ Rabs (c2 - g) * scale0 < r /\ Rabs (c2 - g') * scale0 < r /\ border (defaults (Some lm)) scale0 <= Rabs (c1 - g').
Proof.
  intros lm ra sc H E. assert (R : 15/10 * Rpower (400/100) (2/10) <= r_mask (defaults (Some lm)) ra 400 0).
  { destruct (setup_max _ _ E) as (E1 & E2 & _). unfold r_mask. rewrite E1, E2. cbn [defaults st_use_rmask st_prm0 st_prmb st_gamma st_zpivot st_r0 st_beta].
    rewrite pow_one by (apply Rdiv_lt_0_compat; lra). rcase (15/10 * Rpower (400/100) (2/10) * 1) (r_lambda 1 (2/10) 400); lra. }
  assert (Q : 105/100 * Rpower (300/100) (2/10) < Rpower (400/100) (2/10)).
  { pose proof (pow_pos (300/100) (2/10)) as Q3. pose proof (pow_pos (400/100) (2/10)) as Q4.
    assert (F : forall x, 0 < x -> (Rpower x (2/10)) ^ 5 = x).
    { intros x Hx. rewrite <- Rpower_pow by apply pow_pos. rewrite Rpower_mult. cbn [INR]. replace (2/10 * (1 + 1 + 1 + 1 + 1)) with 1 by lra. apply Rpower_1, Hx. }
    apply Rnot_le_lt. intros Hc. assert (L : (Rpower (400/100) (2/10)) ^ 5 <= (105/100 * Rpower (300/100) (2/10)) ^ 5) by (apply pow_incr; lra).
    rewrite Rpow_mult_distr, !F in L by lra. cbn [pow] in L. lra. }
  set (t := 105/100 * (15/10) * Rpower (300/100) (2/10) / sc).
  assert (T : t * sc < r_mask (defaults (Some lm)) ra 400 0) by (unfold t; unfold Rdiv at 1; rewrite Rmult_assoc, Rinv_l by lra; lra).
  assert (P : 0 < t) by (unfold t; apply Rdiv_lt_0_compat; [pose proof (pow_pos (300/100) (2/10)); lra|exact H]).
  exists 0, (2 * t), t, (3 * t). cbv zeta.
  replace (0 - t) with (- t) by lra. replace (2 * t - t) with t by lra. replace (2 * t - 3 * t) with (- t) by lra. replace (0 - 3 * t) with (- (3 * t)) by lra.
  rewrite !Rabs_Ropp, !Rabs_right by lra. split; [exact T|]. split; [exact T|]. split; [exact T|].
  unfold border. cbn [defaults st_prm0 st_prmb]. fold t. lra.
Qed.
Print Assumptions C96_rich_refuted.
(** a line as the sky *)
Example C96_example : exists ra, setup (defaults (Some (-1))) = Ok ra /\ Rabs (0 - 1) * 1 < r_mask (defaults (Some (-1))) ra 100 0 /\
  Rabs (2 - 1) * 1 < r_mask (defaults (Some (-1))) ra 100 0 /\ Rabs (2 - 3) * 1 < r_mask (defaults (Some (-1))) ra 100 0 /\ border (defaults (Some (-1))) 1 > 3.
Proof.
  destruct (setup_ok (defaults (Some (-1))) (-1) eq_refl) as (ra & E). exists ra. split; [exact E|].
  destruct (setup_max _ _ E) as (E1 & E2 & _).
  assert (R : 15/10 <= r_mask (defaults (Some (-1))) ra 100 0).
  { unfold r_mask. rewrite E1, E2. cbn [defaults st_use_rmask st_prm0 st_prmb st_gamma st_zpivot st_r0 st_beta].
    rewrite pow_one by (apply Rdiv_lt_0_compat; lra). replace (100/100) with 1 by lra. rewrite one_pow. unfold r_lambda. replace (100/100) with 1 by lra. rewrite one_pow. rcase (15/10 * 1 * 1) (1 * 1); lra. }
  assert (A1 : Rabs (0 - 1) = 1) by (rewrite Rabs_left; lra). assert (A2 : Rabs (2 - 1) = 1) by (rewrite Rabs_right; lra). assert (A3 : Rabs (2 - 3) = 1) by (rewrite Rabs_left; lra).
  rewrite A1, A2, A3. split; [lra|]. split; [lra|]. split; [lra|]. unfold border. cbn [defaults st_prm0 st_prmb].
  assert (1 <= Rpower (300/100) (2/10)) by (rewrite <- (one_pow (2/10)) at 1; apply pow_le; lra). lra.
Qed.
