(** C145: values of maps at positions. *)
From Coq Require Import QArith Qabs.
From Verif.Base Require Import Py PyLemmas.
From Verif.Model Require Import MapLook.
From Verif.Spec Require Import MapLook.
From Verif.Proofs Require Import MapLook.
From Coq Require Import Lqa Lia List. Import ListNotations.
Local Open Scope Q_scope.

(** Depths are returned for every list of positions, also impossible ones: the depth of the pixel of each position, and unseen
    outside the map and beyond the poles.  (A pixel lookup respects equal rationals.) *)
Theorem C145_depths pix m ras decs : good_sky pix -> (forall r d d', d == d' -> pix r d = pix r d') -> length ras = length decs ->
  exists out, get_depth_values pix m ras decs = Ok out /\ length out = length ras /\
  forall i ra dec o, nth_error ras i = Some ra -> nth_error decs i = Some dec -> nth_error out i = Some o -> depth_at pix m ra dec o.
Proof.
  intros [G1 G2] GQ L. unfold get_depth_values. rewrite L, Nat.eqb_refl.
  destruct (values_ok pix m dout (combine ras (map (clipQ (-(90)) 90) decs))) as (vs & E & F).
  { intros [r d] I. apply in_combine_r in I. apply in_map_iff in I. destruct I as (x & <- & _). cbn. apply G1, clip_on. }
  rewrite E. cbn [bind]. eexists. split; [reflexivity|]. clear E. revert decs vs L F. induction ras as [|r ras IH]; intros [|d decs] vs L F; try discriminate L.
  - cbn in F. inversion F; subst. split; [reflexivity|]. intros [|i] ra dec o; discriminate.
  - cbn in F. inversion F as [|p a ps as' Fa Fr]; subst. cbn in L. destruct (IH decs as' ltac:(lia) Fr) as [IL IN]. cbn [combine map length]. split; [lia|]. intros [|i] ra dec o Er Ed Eo; [|exact (IN i ra dec o Er Ed Eo)].
    cbn in Er, Ed, Eo. assert (r = ra) by congruence. assert (d = dec) by congruence. subst. destruct Fa as (v & Ev & Ea). cbn in Ev. unfold depth_at. destruct (beyond dec) eqn:B.
    + right. split; [congruence|]. left. apply beyond_iff, B.
    + apply beyond_false in B. rewrite (GQ _ _ _ (proj2 (clip_on dec) B)) in Ev. destruct (m v) as [x|] eqn:Em; subst a; cbn in Eo.
      * left. split; [exact B|]. exists v, x. split; [exact Ev|]. split; [exact Em|congruence].
      * right. split; [congruence|]. right. exists v. auto.
Qed.
Print Assumptions C145_depths.
(** Lists of different lengths are refused by all four lookups. *)
Theorem C145_lengths pix m1 m2 m3 ras decs u : length ras <> length decs -> get_depth_values pix m1 ras decs = Err ValueError /\
  get_fracgoods pix m1 ras decs = Err ValueError /\ calc_zmax pix m2 ras decs = Err ValueError /\ compute_radmask pix m3 ras decs u = Err ValueError.
Proof. intros N. unfold get_depth_values, get_fracgoods, calc_zmax, compute_radmask. destruct (Nat.eqb_spec (length ras) (length decs)); [congruence|auto]. Qed.
Print Assumptions C145_lengths.
(** The good fraction on the map is that of its pixel, and 0 beyond the poles.  (Missing: outside the map, next theorem.) *)
Theorem C145_fractions_partial pix m ra dec : good_sky pix -> (forall r d d', d == d' -> pix r d = pix r d') ->
  (~ on_sky dec -> get_fracgoods pix m [ra] [dec] = Ok [0]) /\
  (forall p d, on_sky dec -> pix ra dec = Ok p -> m p = Some d -> get_fracgoods pix m [ra] [dec] = Ok [d_frac d]).
Proof.
  intros [G1 G2] GQ. unfold get_fracgoods. cbn. split.
  - intros N. destruct (G1 ra _ (proj1 (clip_on dec))) as (v & ->). cbn. apply beyond_iff in N. rewrite N. reflexivity.
  - intros p d O E M. rewrite (GQ _ _ _ (proj2 (clip_on dec) O)), E. cbn. rewrite M. apply beyond_false in O. rewrite O. reflexivity.
Qed.
Print Assumptions C145_fractions_partial.
(** Finding: the good fraction of a position outside the map is not 0 but the number for "unseen", less than minus 1e30. *)
Theorem C145_fraction_outside_refuted pix m ra dec p : good_sky pix -> (forall r d d', d == d' -> pix r d = pix r d') -> on_sky dec -> pix ra dec = Ok p -> m p = None ->
  get_fracgoods pix m [ra] [dec] = Ok [unseen] /\ unseen < -1000000000000000000000000000000 # 1.
Proof.
  intros [G1 G2] GQ O E M. unfold get_fracgoods. cbn. rewrite (GQ _ _ _ (proj2 (clip_on dec) O)), E. cbn. rewrite M. apply beyond_false in O. rewrite O. split; [reflexivity|]. reflexivity.
Qed.
Print Assumptions C145_fraction_outside_refuted.
(** Redshift limits of positions on the sky: that of the pixel, at least 0; and 0 outside the map. *)
Theorem C145_zmax_partial pix m ras decs : good_sky pix -> length ras = length decs -> (forall d, In d decs -> on_sky d) -> exists out, calc_zmax pix m ras decs = Ok out /\
  Forall2 (fun p o => exists v, pix (fst p) (snd p) = Ok v /\ match m v with Some (z, f) => snd o = f /\ (0 <= z -> fst o == z) /\ (z <= 0 -> fst o == 0) | None => fst o == 0 end) (combine ras decs) out.
Proof.
  intros [G1 G2] L O. unfold calc_zmax. rewrite L, Nat.eqb_refl. destruct (values_ok pix m (unseen, unseen) (combine ras decs)) as (vs & E & F).
  { intros [r d] I. apply in_combine_r in I. cbn. apply G1, O, I. }
  rewrite E. cbn [bind]. eexists. split; [reflexivity|]. clear E. revert decs vs L O F. induction ras as [|r ras IH]; intros [|d decs] vs L O F; try discriminate L; cbn in F; inversion F as [|p a ps as' Fa Fr]; subst; [constructor|]. cbn in L. cbn [combine map]. constructor; [|apply IH; [lia|intros; apply O; right; assumption|exact Fr]].
  destruct Fa as (v & Ev & Ea). exists v. split; [exact Ev|]. cbn [fst snd]. rewrite (proj2 (beyond_false d)) by (apply O; left; reflexivity). cbn [fst snd]. destruct (m v) as [[z f]|]; subst a; cbn [fst snd].
  - split; [reflexivity|]. unfold Qmax2. destruct (Qle_bool z 0) eqn:B; [apply Qle_bool_iff in B|apply Qle_bool_false in B]; split; intros; lra.
  - reflexivity.
Qed.
Print Assumptions C145_zmax_partial.
(** Finding: the redshift limit of a list with one position beyond a pole is an exception, though such positions are meant to
    have the limit 0 (the depth lookup clips the declinations first, this one does not). *)
Theorem C145_zmax_pole_refuted pix m ras decs d : good_sky pix -> length ras = length decs -> In d decs -> ~ on_sky d -> exists e, calc_zmax pix m ras decs = Err e.
Proof.
  intros [G1 G2] L I N. unfold calc_zmax. rewrite L, Nat.eqb_refl.
  assert (X : exists r, In (r, d) (combine ras decs)). { clear -L I. revert decs L I. induction ras as [|r ras IH]; intros [|x decs] L I; try discriminate L; [destruct I|]. cbn in L. destruct I as [->|I]; [exists r; left; reflexivity|]. destruct (IH decs ltac:(lia) I) as (r' & J). exists r'. right. exact J. }
  destruct X as (r & X). destruct (values_err pix m (unseen, unseen) _ (r, d) ValueError X (G2 r d N)) as (e & ->). exists e. reflexivity.
Qed.
Print Assumptions C145_zmax_pole_refuted.
(** A mask without depth: everywhere on the mask the redshift limit is the end of the range, with the good fraction of the mask. *)
Theorem C145_geometry pix mask zmax ra dec p : good_sky pix -> on_sky dec -> pix ra dec = Ok p -> 0 < zmax ->
  calc_zmax pix (geometry_mask mask zmax) [ra] [dec] = Ok [match mask p with Some f => (zmax, f) | None => (0, unseen) end].
Proof.
  intros G O E Z. unfold calc_zmax. cbn. rewrite E. cbn. apply beyond_false in O. rewrite O. unfold geometry_mask. destruct (mask p) as [f|]; cbn; [|reflexivity]. unfold Qmax2. destruct (Qle_bool zmax 0) eqn:B; [apply Qle_bool_iff in B; lra|reflexivity].
Qed.
Print Assumptions C145_geometry.
(** A position is in the mask exactly if it lies strictly between the poles, on the mask, and its random number is below the good
    fraction there; no position makes the lookup fail. *)
Theorem C145_radmask pix mask ras decs u : good_sky pix -> length ras = length decs -> length u = length ras -> (forall x, In x u -> 0 <= x) ->
  exists out, compute_radmask pix mask ras decs u = Ok out /\ length out = length ras /\
  forall i ra dec x b, nth_error ras i = Some ra -> nth_error decs i = Some dec -> nth_error u i = Some x -> nth_error out i = Some b ->
    (b = true <-> -(90) < dec /\ dec < 90 /\ exists p f, pix ra dec = Ok p /\ mask p = Some f /\ x < f).
Proof.
  intros [G1 G2] L Lu U. unfold compute_radmask. rewrite L, Nat.eqb_refl. cbv zeta.
  set (ok := inside). assert (OK : forall p, ok p = true <-> -(90) < snd p /\ snd p < 90). { intros p. unfold ok, inside. rewrite Qlt_bool_iff. rewrite Qabs_Qlt_condition. lra. }
  clearbody ok.
  destruct (values_ok pix mask unseen (filter ok (combine ras decs))) as (vs & E & F).
  { intros p I. apply filter_In in I. destruct I as [_ I]. apply OK in I. apply G1. unfold on_sky. lra. }
  rewrite E. cbn [bind]. eexists. split; [reflexivity|]. clear E. revert decs u vs L Lu U F. induction ras as [|r ras IH]; intros [|d decs] [|y u] vs L Lu U F; try discriminate L; try discriminate Lu.
  - split; [reflexivity|]. intros [|i]; discriminate.
  - cbn in L, Lu. cbn [combine filter] in F. destruct (ok (r, d)) eqn:Eo.
    + inversion F as [|p a ps as' Fa Fr]; subst. destruct (IH decs u as' ltac:(lia) ltac:(lia) (fun x I => U x (or_intror I)) Fr) as [IL IN]. cbn. rewrite Eo. cbn. split; [rewrite <- IL; reflexivity|].
      intros [|i] ra dec x b Er Ed Ex Eb; [|exact (IN i ra dec x b Er Ed Ex Eb)]. cbn in Er, Ed, Ex, Eb. assert (r = ra) by congruence. assert (d = dec) by congruence. assert (y = x) by congruence. subst. apply OK in Eo. cbn in Eo. destruct Fa as (v & Ev & Ea). cbn in Ev. assert (b = Qlt_bool x a) by congruence. subst b. rewrite Qlt_bool_iff. split.
      * intros X. split; [tauto|]. split; [tauto|]. destruct (mask v) as [f|] eqn:Em; [subst a; exists v, f; auto|]. subst a. exfalso. pose proof (U x (or_introl eq_refl)) as U0. assert (unseen < 0) by reflexivity. lra.
      * intros (_ & _ & p & f & E1 & E2 & E3). assert (v = p) by congruence. subst v. rewrite E2 in Ea. subst a. exact E3.
    + destruct (IH decs u vs ltac:(lia) ltac:(lia) (fun x I => U x (or_intror I)) F) as [IL IN]. cbn. rewrite Eo. cbn. split; [rewrite <- IL; reflexivity|].
      intros [|i] ra dec x b Er Ed Ex Eb; [|exact (IN i ra dec x b Er Ed Ex Eb)]. cbn in Er, Ed, Ex, Eb. assert (r = ra) by congruence. assert (d = dec) by congruence. assert (y = x) by congruence. subst. assert (b = Qlt_bool x 0) by congruence. subst b. rewrite Qlt_bool_iff. split.
      * intros X. exfalso. pose proof (U x (or_introl eq_refl)). lra.
      * intros (A & B & _). exfalso. assert (ok (ra, dec) = true) by (apply OK; cbn; lra). congruence.
Qed.
Print Assumptions C145_radmask.
(** A table converted to a map has at each position the row of its pixel, whichever way the pixels were numbered, and nothing
    elsewhere.  [ring]: the ring pixel of a position; [r2n]: the same pixel in the nested numbering. *)
Theorem C145_converted {A} (r2n : Z -> Z) (nested : bool) (rows : list (Z * A)) : (forall a b, r2n a = r2n b -> a = b) -> NoDup (map fst rows) ->
  (forall p v, In (p, v) rows -> converted r2n nested rows (if nested then p else r2n p) = Some v) /\
  (forall q, (forall p v, In (p, v) rows -> (if nested then p else r2n p) <> q) -> converted r2n nested rows q = None).
Proof.
  intros I N. set (f := fun r : Z * A => if nested then fst r else r2n (fst r)).
  assert (Nf : NoDup (map f rows)). { clear -I N. unfold f. induction rows as [|r t IH]; [constructor|]. cbn in N |- *. inversion N as [|a b N1 N2]; subst. constructor; [|apply IH, N2]. intros X. apply N1. apply in_map_iff in X. destruct X as (s & E & J). apply in_map_iff. exists s. split; [|exact J]. destruct nested; [exact E|apply I, E]. }
  unfold converted. split.
  - intros p v J. pose proof (find_rev_unique f rows (p, v) Nf J) as X. unfold f in X. cbn [fst] in X. rewrite X. reflexivity.
  - intros q H. destruct (find _ (rev rows)) as [[p v]|] eqn:E; [|reflexivity]. apply find_some in E. destruct E as [J E]. apply in_rev in J. apply Z.eqb_eq in E. exfalso. exact (H p v J E).
Qed.
Print Assumptions C145_converted.
(** a map with one pixel, the northern hemisphere *)
Definition C145_sky : sky := fun ra dec => if Qlt_le_dec 90 dec then Err ValueError else if Qlt_le_dec dec (-(90)) then Err ValueError else Ok (if Qlt_le_dec dec 0 then 2%Z else 1%Z).
Example C145_example : good_sky C145_sky /\ (forall r d d', d == d' -> C145_sky r d = C145_sky r d') /\
  get_depth_values C145_sky (converted (fun p => p + 1)%Z false [(0%Z, mkDval 21 100 22 (1#2))]) [10; 10; 10] [5; -(5); 95] = Ok [(21, 100, 22); (unseen, unseen, unseen); (unseen, unseen, unseen)].
Proof.
  split; [|split; [|vm_compute; reflexivity]].
  - unfold good_sky, C145_sky, on_sky. split; intros ra dec H; destruct (Qlt_le_dec 90 dec); [lra| |reflexivity|]; destruct (Qlt_le_dec dec (-(90))); try lra; [eexists; reflexivity|reflexivity].
  - intros r d d' E. unfold C145_sky. destruct (Qlt_le_dec 90 d), (Qlt_le_dec 90 d'); try lra; [reflexivity|]. destruct (Qlt_le_dec d (-(90))), (Qlt_le_dec d' (-(90))); try lra; [reflexivity|]. destruct (Qlt_le_dec d 0), (Qlt_le_dec d' 0); try lra; reflexivity.
Qed.
