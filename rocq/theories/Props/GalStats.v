(** C120: what a galaxy file says about itself. *)
From Coq Require Import String Ascii ZArith QArith.
From Verif.Base Require Import Py PyLemmas.
From Verif.Model Require Import GalStats.
From Verif.Proofs Require Import GalStats.
From Coq Require Import Lia List. Import ListNotations.
Local Open Scope string_scope.

(** C120: an entry b_ind is that of band b, for any name of a band but "ref". *)
Theorem C120_names : forall b, b <> "ref" -> band_of (b ++ "_ind") = Some b.
Proof. exact band_of_ind. Qed.
Print Assumptions C120_names.
(** If a file says where each band is, no two in the same place and none missing, these are the bands of the configuration. *)
Theorem C120_bands_partial : forall refmag f m, gf_fits f = true -> survey_mode (gf_mode f) = Ok m ->
  (exists v, entry (gf_entries f) (refmag ++ "_ind") = Some v) ->
  let says b k := exists name, In (name, Z.of_nat k) (gf_entries f) /\ band_of name = Some b in
  (forall name v b, In (name, v) (gf_entries f) -> band_of name = Some b -> (0 <= v < Z.of_nat (gf_nmag f))%Z) ->
  (forall b b' k, says b k -> says b' k -> b = b') -> (forall k, (k < gf_nmag f)%nat -> exists b, says b k) ->
  exists s l, galfile_stats refmag f = Ok s /\ gs_pixelized s = gf_pixels f /\ gs_mode s = m /\ gs_nmag s = gf_nmag f /\
    gs_ref s = entry (gf_entries f) (refmag ++ "_ind") /\ gs_bands s = Some l /\ length l = gf_nmag f /\
    forall k b, nth_error l k = Some b <-> says b k.
Proof.
  intros refmag f m F M (v & R) says IB U C. unfold galfile_stats. rewrite F, M. cbn [negb bind]. rewrite R. rewrite andb_false_r.
  destruct (fill_complete (gf_entries f) (repeat None (gf_nmag f))) as (r & E & L & K); [rewrite repeat_length; exact IB|]. rewrite repeat_length in L.
  destruct (fill_sound _ _ _ E) as [_ S]. rewrite repeat_length in S. rewrite E. cbn [bind].
  destruct (all_known_ok r) as (l & A); [intros k Hk; apply K; left; destruct (C k) as (b & name & X); [lia|]; exists name, b; exact X|].
  rewrite A. exists (mkGS (gf_pixels f) m (gf_nmag f) (Some v) (Some l)), l. split; [reflexivity|]. cbn. apply all_known_some in A. assert (LL : length l = gf_nmag f) by (rewrite <- L, A, map_length; reflexivity).
  repeat split; auto.
  - intros H. assert (Hr : nth_error r k = Some (Some b)) by (rewrite A, nth_error_map, H; reflexivity). destruct (S k b Hr) as [X|(name & w & I & B & V)].
    + apply nth_error_In in X. apply repeat_spec in X. discriminate.
    + exists name. pose proof (IB name w b I B). assert (k < gf_nmag f)%nat by (rewrite <- LL; apply nth_error_Some; congruence). replace (Z.of_nat k) with w by lia. auto.
  - intros H. assert (Hk : (k < gf_nmag f)%nat). { destruct H as (name & I & B). pose proof (IB name _ b I B). lia. }
    destruct (nth_error l k) as [b'|] eqn:Eb; [|apply nth_error_None in Eb; lia]. f_equal. apply (U b' b k); [|exact H].
    assert (Hr : nth_error r k = Some (Some b')) by (rewrite A, nth_error_map, Eb; reflexivity). destruct (S k b' Hr) as [X|(name & w & I & B & V)].
    + apply nth_error_In in X. apply repeat_spec in X. discriminate.
    + exists name. pose proof (IB name w b' I B). replace (Z.of_nat k) with w by lia. auto.
Qed.
Print Assumptions C120_bands_partial.
(** A band that it does not place leaves all bands to the configuration file. *)
Theorem C120_missing : forall refmag f s k, galfile_stats refmag f = Ok s -> (k < gf_nmag f)%nat ->
  (forall name v b, In (name, v) (gf_entries f) -> band_of name = Some b -> v <> Z.of_nat k /\ v <> (Z.of_nat k - Z.of_nat (gf_nmag f))%Z) -> gs_bands s = None.
Proof.
  intros refmag f s k H Hk N. unfold galfile_stats in H. destruct (negb (gf_fits f)); [discriminate|]. destruct (survey_mode (gf_mode f)) as [m|]; [|discriminate]. cbn [bind] in H.
  destruct (gf_pixels f && _); [discriminate|]. destruct (fill (gf_entries f) (repeat None (gf_nmag f))) as [r|] eqn:E; [|discriminate]. cbn [bind] in H. injection H as <-. cbn.
  destruct (all_known r) as [l|] eqn:A; [|reflexivity]. exfalso. apply all_known_some in A. destruct (fill_sound _ _ _ E) as [L S]. rewrite repeat_length in L, S.
  destruct (nth_error l k) as [b|] eqn:Eb; [|apply nth_error_None in Eb; rewrite A, map_length in L; lia].
  destruct (S k b) as [X|(name & v & I & B & V)]; [rewrite A, nth_error_map, Eb; reflexivity| |].
  - apply nth_error_In in X. apply repeat_spec in X. discriminate.
  - destruct (N name v b I B). tauto.
Qed.
Print Assumptions C120_missing.
(** The reference magnitude is then the band at its place. *)
Theorem C120_reference_partial : forall refmag f s l v, galfile_stats refmag f = Ok s -> gs_bands s = Some l -> gs_ref s = Some v -> refmag <> "ref" ->
  (forall name w b, In (name, w) (gf_entries f) -> band_of name = Some b -> (0 <= w < Z.of_nat (gf_nmag f))%Z) ->
  (forall name name' w b b', In (name, w) (gf_entries f) -> In (name', w) (gf_entries f) -> band_of name = Some b -> band_of name' = Some b' -> b = b') ->
  nth_error l (Z.to_nat v) = Some refmag.
Proof.
  intros refmag f s l v H HB HR NR IB U. unfold galfile_stats in H. destruct (negb (gf_fits f)); [discriminate|]. destruct (survey_mode (gf_mode f)) as [m|]; [|discriminate]. cbn [bind] in H.
  destruct (gf_pixels f && _); [discriminate|]. destruct (fill (gf_entries f) (repeat None (gf_nmag f))) as [r|] eqn:E; [|discriminate]. cbn [bind] in H. injection H as <-. cbn in HB, HR.
  assert (IN : forall es, entry es (refmag ++ "_ind") = Some v -> In (refmag ++ "_ind", v) es).
  { induction es as [|[n w] t IH]; cbn [entry]; [discriminate|]. destruct (String.eqb n (refmag ++ "_ind")) eqn:Q; [apply String.eqb_eq in Q; intros [= ->]; left; congruence|right; auto]. }
  apply IN in HR. pose proof (band_of_ind refmag NR) as BR. pose proof (IB _ _ _ HR BR) as BV. apply all_known_some in HB. destruct (fill_sound _ _ _ E) as [L S]. rewrite repeat_length in L, S.
  destruct (nth_error l (Z.to_nat v)) as [b|] eqn:Eb; [|apply nth_error_None in Eb; rewrite HB, map_length in L; lia]. f_equal.
  destruct (S (Z.to_nat v) b) as [X|(name & w & I & B & V)]; [rewrite HB, nth_error_map, Eb; reflexivity| |].
  - apply nth_error_In in X. apply repeat_spec in X. discriminate.
  - pose proof (IB _ _ _ I B). assert (w = v) by lia. subst w. exact (U _ _ _ _ _ I HR B BR).
Qed.
Print Assumptions C120_reference_partial.
(** Only the three surveys, and only files marked as FITS, are accepted. *)
Theorem C120_modes : forall refmag f s, galfile_stats refmag f = Ok s -> gf_fits f = true /\
  (gf_mode f = "SDSS" /\ gs_mode s = 0%Z \/ gf_mode f = "DES" /\ gs_mode s = 1%Z \/ gf_mode f = "LSST" /\ gs_mode s = 2%Z).
Proof.
  intros refmag f s H. unfold galfile_stats in H. destruct (gf_fits f); [|discriminate]. split; [reflexivity|]. cbn [negb] in H. destruct (survey_mode (gf_mode f)) as [m|] eqn:M; [|discriminate]. cbn [bind] in H.
  destruct (gf_pixels f && _); [discriminate|]. destruct (fill _ _) as [r|]; [|discriminate]. cbn [bind] in H. injection H as <-. cbn. unfold survey_mode in M.
  destruct (String.eqb_spec (gf_mode f) "SDSS"); [injection M as <-; auto|]. destruct (String.eqb_spec (gf_mode f) "DES"); [injection M as <-; auto|]. destruct (String.eqb_spec (gf_mode f) "LSST"); [injection M as <-; auto|discriminate].
Qed.
Print Assumptions C120_modes.
Definition ex_file (e : list (string * Z)) : gfile := mkGF true true "DES" 2 e.
(** Finding: of two bands in the same place the last one is taken, silently. *)
Theorem C120_conflict_refuted : exists e s, In ("r_ind", 1%Z) e /\ galfile_stats "r" (ex_file e) = Ok s /\ gs_ref s = Some 1%Z /\ gs_bands s = Some ["g"; "i"].
Proof. exists [("g_ind", 0%Z); ("r_ind", 1%Z); ("i_ind", 1%Z)]. eexists. split; [cbn; auto|]. split; [reflexivity|]. split; reflexivity. Qed.
Print Assumptions C120_conflict_refuted.
(** Finding: any name with "_ind" in it is taken for that of a band, as match_index for the band "match". *)
Theorem C120_other_refuted : exists e s, e = [("g_ind", 0%Z); ("r_ind", 1%Z); ("match_index", 0%Z)] /\ galfile_stats "r" (ex_file e) = Ok s /\ gs_bands s = Some ["match"; "r"].
Proof. eexists. eexists. split; [reflexivity|]. split; reflexivity. Qed.
Print Assumptions C120_other_refuted.
Example C120_example : exists s, galfile_stats "r" (ex_file [("ref_ind", 1%Z); ("r_ind", 1%Z); ("area", 10%Z); ("g_ind", 0%Z)]) = Ok s /\ gs_bands s = Some ["g"; "r"].
Proof. eexists. split; reflexivity. Qed.
(** A place that is not in the table, from either end, is an IndexError. *)
Theorem C120_outside {A} (l : list A) v x : (v < - Z.of_nat (length l) \/ Z.of_nat (length l) <= v)%Z -> py_set l v x = Err IndexError.
Proof.
  intros H. unfold py_set. destruct (Z.ltb_spec v 0); [destruct (Z.leb_spec 0 (v + Z.of_nat (length l))); [lia|reflexivity]|].
  destruct (Z.ltb_spec v (Z.of_nat (length l))); [lia|]. rewrite andb_false_r. reflexivity.
Qed.
Print Assumptions C120_outside.
(** A file that is no FITS file, or whose mode is none of SDSS, DES and LSST, is refused with a ValueError. *)
Theorem C120_refused : forall refmag f, gf_fits f = false \/ ~ In (gf_mode f) ["SDSS"; "DES"; "LSST"] \/
  (gf_pixels f = true /\ entry (gf_entries f) (refmag ++ "_ind") = None) -> galfile_stats refmag f = Err ValueError.
Proof.
  intros refmag f H. unfold galfile_stats. destruct (gf_fits f); [|reflexivity]. cbn [negb]. unfold survey_mode.
  assert (X : forall m, In m ["SDSS"; "DES"; "LSST"] -> m = gf_mode f -> (gf_pixels f = true /\ entry (gf_entries f) (refmag ++ "_ind") = None)%string).
  { intros m Hm ->. destruct H as [H|[H|H]]; [discriminate|contradiction|exact H]. }
  destruct (String.eqb_spec (gf_mode f) "SDSS") as [E|_]; [|destruct (String.eqb_spec (gf_mode f) "DES") as [E|_]; [|destruct (String.eqb_spec (gf_mode f) "LSST") as [E|_]; [|reflexivity]]];
    (destruct (X (gf_mode f)) as [A B]; [rewrite E; cbn; auto|reflexivity|]; cbn [bind]; rewrite A, B; reflexivity).
Qed.
Print Assumptions C120_refused.
