(** C175: the medians of the calibration sample, the ratio of the errors, and the file of the redshifts. *)
From Coq Require Import Reals Lra Ascii String.
From Verif.Base Require Import Py PyLemmas.
From Verif.Model Require Import Names Depth ErrBin MedCol.
From Verif.Spec Require Import MedCol.
From Verif.Proofs Require Import Names Depth MedCol.
From Coq Require Import Lia List. Import ListNotations.
Local Open Scope R_scope.

(** The range of magnitudes at a redshift is the range of luminosities from 0.1 below the reference (at least 0.001) to 30 times the
    characteristic one, and is not empty for every reference below 30.1. *)
Theorem C175_magnitudes mstar ref z m : (min_refmag mstar z <= m <= max_refmag mstar ref z <-> Rmax (ref - 1/10) (1/1000) <= lum (mstar z) m <= 30) /\
  (min_refmag mstar z < max_refmag mstar ref z <-> ref < 301/10).
Proof.
  unfold min_refmag, max_refmag, lval_min. assert (P : 0 < Rmax (ref - 1/10) (1/1000)) by (pose proof (Rmax_r (ref - 1/10) (1/1000)); lra). split.
  - rewrite (lum_ge _ _ _ P), lum_le by lra. tauto.
  - set (l := Rmax (ref - 1/10) (1/1000)) in *. assert (X : l < 30 <-> ref < 301/10) by (unfold l, Rmax; destruct (Rle_dec (ref - 1/10) (1/1000)); lra). rewrite <- X. split; intros H.
    + destruct (Rlt_or_le l 30) as [L|[L|L]]; [exact L| |]; [apply log10_lt in L; lra|rewrite <- L in H; lra].
    + apply log10_lt in H; lra.
Qed.
Print Assumptions C175_magnitudes.
(** The fit of a color always gives a width of at least 0.0148 at every node and, if asked for, a ratio of true to stated errors among 0.5, 0.6,
    ..., 9.9: the one with the scatter of the normalised residuals closest to 1, the smallest if there are several.  If not asked for it
    is 1. *)
Theorem C175_color L fit start scstart gals : fit_bounded L -> scstart <> [] -> exists m, calc_medcol L fit start scstart gals = Ok m /\
  List.length (m_width m) = List.length scstart /\ (forall w, In w (m_width m) -> 14826/1000000 <= w) /\ (fit = false -> m_ratio m = 1) /\
  (fit = true -> on_grid (m_ratio m) /\ exists sig, nth_error (m_width m) 0 = Some sig /\
    let off r := Rabs (madR (map (fun g => (c_col g - l_spl L (m_col m) (c_z g)) / sqrt ((r * c_err g) ^ 2 + sig ^ 2)) gals) - 1) in
    forall r, on_grid r -> off (m_ratio m) <= off r /\ (r < m_ratio m -> off (m_ratio m) < off r)).
Proof.
  intros B N. unfold calc_medcol. cbv zeta. set (mv := l_med L _ _ start None). set (sc := l_med L _ _ scstart _). destruct (B (map c_z gals) (map (fun g => Rabs (c_col g - l_spl L mv (c_z g))) gals) scstart (1/100)) as [B1 B2]. fold sc in B1, B2.
  assert (W : forall w, In w (map (fun s => 14826/10000 * s) sc) -> 14826/1000000 <= w). { intros w I. apply in_map_iff in I as (s & <- & I). apply B2 in I. lra. }
  destruct fit.
  - destruct sc as [|s0 sc'] eqn:Es; [destruct scstart; [congruence|discriminate]|]. rewrite <- Es in *. assert (E : map (fun s => 14826/10000 * s) sc = 14826/10000 * s0 :: map (fun s => 14826/10000 * s) sc') by (rewrite Es; reflexivity).
    set (des := map (fun g => (c_col g - l_spl L mv (c_z g), c_err g)) gals). destruct (ratio_spec (14826/10000 * s0) des) as (k & K & R & A & F). exists (mkMC mv (map (fun s => 14826/10000 * s) sc) (rat k)). split; [rewrite E; rewrite R; reflexivity|]. cbn [m_width m_ratio m_col].
    split; [rewrite map_length; exact B1|]. split; [exact W|]. split; [discriminate|]. intros _. split; [exists k; split; [exact K|unfold rat; lra]|]. exists (14826/10000 * s0). split; [rewrite E; reflexivity|]. cbv zeta.
    assert (G : forall r, madR (map (fun g => (c_col g - l_spl L mv (c_z g)) / sqrt ((r * c_err g) ^ 2 + (14826/10000 * s0) ^ 2)) gals) = sigma_pull (14826/10000 * s0) des r) by (intros r; unfold sigma_pull, des; rewrite map_map; reflexivity).
    intros r (j & J & ->). replace (5/10 + INR j / 10) with (rat j) by (unfold rat; lra). rewrite !G. split; [apply A, J|]. intros L'. apply F. destruct (Nat.lt_ge_cases j k) as [X|X]; [exact X|]. exfalso. apply le_INR in X. unfold rat in L'. lra.
  - eexists. split; [reflexivity|]. cbn [m_width m_ratio m_col]. split; [rewrite map_length; exact B1|]. split; [exact W|]. split; [reflexivity|discriminate].
Qed.
Print Assumptions C175_color.
Lemma unfold_ratio L start scstart gals m : calc_medcol L true start scstart gals = Ok m -> exists sig, nth_error (m_width m) 0 = Some sig /\
  err_ratio sig (map (fun g => (c_col g - l_spl L (m_col m) (c_z g), c_err g)) gals) = Ok (m_ratio m).
Proof.
  unfold calc_medcol. cbv zeta. set (mv := l_med L _ _ start None). destruct (map (fun s => 14826/10000 * s) _) as [|sig w]; [discriminate|]. set (des := map _ gals). destruct (err_ratio sig des) as [r|] eqn:E; [|discriminate].
  cbn [bind]. intros [= <-]. exists sig. split; [reflexivity|exact E].
Qed.
Lemma unfold_width L fit start scstart gals m : calc_medcol L fit start scstart gals = Ok m ->
  m_width m = map (fun s => 14826/10000 * s) (l_med L (map c_z gals) (map (fun g => Rabs (c_col g - l_spl L (l_med L (map c_z gals) (map c_col gals) start None) (c_z g))) gals) scstart (Some (1/100))).
Proof.
  unfold calc_medcol. cbv zeta. destruct fit; [|intros [= <-]; reflexivity]. destruct (map (fun s => 14826/10000 * s) _) as [|sig w] eqn:W; [discriminate|]. destruct (err_ratio sig _); [|discriminate]. cbn [bind]. intros [= <-]. reflexivity.
Qed.
(** If all stated errors are equal, and too small by a factor that is on the grid, this factor is found. (Partial: stated errors that differ from galaxy
    to galaxy; factors off the grid.) *)
Theorem C175_recovered_partial L start scstart gals m sig e r : calc_medcol L true start scstart gals = Ok m -> nth_error (m_width m) 0 = Some sig -> 0 < sig ->
  0 < e -> (forall g, In g gals -> c_err g = e) -> on_grid r -> madR (map (fun g => c_col g - l_spl L (m_col m) (c_z g)) gals) = sqrt ((r * e) ^ 2 + sig ^ 2) -> m_ratio m = r.
Proof.
  intros C N S E H (k & K & ->) M. destruct (unfold_ratio _ _ _ _ _ C) as (s & N' & R). assert (s = sig) by congruence. subst s.
  replace (5/10 + INR k / 10) with (rat k) in * by (unfold rat; lra). assert (X : err_ratio sig (map (fun g => (c_col g - l_spl L (m_col m) (c_z g), c_err g)) gals) = Ok (rat k)); [|congruence].
  apply (found sig e); try assumption; [|rewrite map_map; exact M]. intros d D. apply in_map_iff in D as (g & <- & I). apply H, I.
Qed.
Print Assumptions C175_recovered_partial.
(** Finding: the intrinsic scatter that is taken is the observed one at the lowest node.  If the scatter of the whole sample is not larger than it, as in a sample
    whose scatter does not change with redshift, the ratio is 0.5: the stated errors are taken to be twice too large, however large they are.  So it
    is when all stated errors are 0. *)
Theorem C175_half_refuted L start scstart gals m sig e : calc_medcol L true start scstart gals = Ok m -> nth_error (m_width m) 0 = Some sig -> 0 < sig ->
  0 <= e -> (forall g, In g gals -> c_err g = e) -> (madR (map (fun g => c_col g - l_spl L (m_col m) (c_z g)) gals) <= sig \/ e = 0) -> m_ratio m = 1/2.
Proof.
  intros C N S E H M. destruct (unfold_ratio _ _ _ _ _ C) as (s & N' & R). assert (s = sig) by congruence. subst s.
  assert (X : err_ratio sig (map (fun g => (c_col g - l_spl L (m_col m) (c_z g), c_err g)) gals) = Ok (1/2)); [|congruence].
  apply (smallest sig e); try assumption; [intros d D; apply in_map_iff in D as (g & <- & I); apply H, I|]. destruct M as [M|M]; [left|right; exact M]. rewrite map_map. cbn [fst]. eapply Rle_trans; [exact M|].
  rewrite <- (sqrt_pow2 sig) at 1 by lra. apply sqrt_le_1_alt. pose proof (pow2_ge_0 (rat 0 * e)). lra.
Qed.
Print Assumptions C175_half_refuted.
(** Finding: errors that are too small by more than a factor 9.9 are corrected by 9.9, without a message. *)
Theorem C175_largest_refuted L start scstart gals m sig e r : calc_medcol L true start scstart gals = Ok m -> nth_error (m_width m) 0 = Some sig -> 0 < sig ->
  0 < e -> (forall g, In g gals -> c_err g = e) -> 99/10 <= r -> madR (map (fun g => c_col g - l_spl L (m_col m) (c_z g)) gals) = sqrt ((r * e) ^ 2 + sig ^ 2) -> m_ratio m = 99/10.
Proof.
  intros C N S E H Hr M. destruct (unfold_ratio _ _ _ _ _ C) as (s & N' & R). assert (s = sig) by congruence. subst s.
  assert (X : err_ratio sig (map (fun g => (c_col g - l_spl L (m_col m) (c_z g), c_err g)) gals) = Ok (99/10)); [|congruence].
  apply (largest sig e); try assumption; [intros d D; apply in_map_iff in D as (g & <- & I); apply H, I|]. rewrite map_map. cbn [fst]. rewrite M. apply sqrt_le_1_alt. apply Rplus_le_compat_r.
  assert (Q : rat 94 = 99/10) by (unfold rat; rewrite INR_IZR_INZ; cbn [Z.of_nat Pos.of_succ_nat Pos.succ]; lra). rewrite Q. apply pow_incr. split; nra.
Qed.
Print Assumptions C175_largest_refuted.
(** Without nodes there is no intrinsic scatter: an IndexError. *)
Theorem C175_no_nodes L start gals : fit_bounded L -> calc_medcol L true start [] gals = Err IndexError.
Proof. intros B. unfold calc_medcol. cbv zeta. set (mv := l_med L _ _ start None). set (sc := l_med L _ _ [] _). assert (E : List.length sc = O) by apply B. destruct sc; [reflexivity|discriminate]. Qed.
Print Assumptions C175_no_nodes.
Local Open Scope list_scope.
(** The redshifts of the galaxies in dir/stem.fit are written to stem_zreds.fit in the output directory. (Partial: stems that do not end in one of the
    letters f, i, t or a dot.) *)
Theorem C175_zreds_partial out dir stem c : ~ In "/"%char (stem ++ [c]) -> ~ In c (s_ ".fit") -> out <> [] -> last out "/"%char <> "/"%char ->
  zred_file out (dir ++ s_ "/" ++ stem ++ [c] ++ s_ ".fit") = out ++ s_ "/" ++ stem ++ [c] ++ s_ "_zreds.fit" /\
  zred_file out (stem ++ [c] ++ s_ ".fit") = out ++ s_ "/" ++ stem ++ [c] ++ s_ "_zreds.fit".
Proof.
  intros H C O O'. assert (K : char_in (s_ ".fit") c = false) by (destruct (char_in (s_ ".fit") c) eqn:X; [apply char_in_iff in X; contradiction|reflexivity]).
  assert (J : forall n, join out n = out ++ s_ "/" ++ n). { intros n. unfold join. destruct (exists_last O) as (o & x & ->). rewrite rev_app_distr. cbn [rev app]. rewrite last_last in O'. destruct (Ascii.eqb_spec x "/"%char); [contradiction|reflexivity]. }
  assert (Z : ~ In "/"%char (stem ++ [c] ++ s_ "_zreds.fit")). { rewrite app_assoc. intros I. apply in_app_or in I as [I|I]; [exact (H I)|]. cbn in I. intuition discriminate. }
  unfold zred_file. split.
  - replace (dir ++ s_ "/" ++ stem ++ [c] ++ s_ ".fit") with ((dir ++ s_ "/" ++ stem ++ [c]) ++ s_ ".fit") by (rewrite <- !app_assoc; reflexivity). rewrite rstrip_fit.
    replace (dir ++ s_ "/" ++ stem ++ [c]) with ((dir ++ s_ "/" ++ stem) ++ [c]) by (rewrite <- !app_assoc; reflexivity). rewrite (rstrip_id' _ _ _ K). rewrite <- !app_assoc. rewrite basename_in by exact Z. apply J.
  - rewrite app_assoc, rstrip_fit, (rstrip_id' _ _ _ K). rewrite <- app_assoc. rewrite basename_id by exact Z. apply J.
Qed.
Print Assumptions C175_zreds_partial.
(** Finding: the extension is taken off letter by letter.  Galaxy files whose names differ in letters f, i, t and dots at the end of the stem have one file of redshifts; that
    of dir/fit.fit has no stem. *)
Theorem C175_zreds_refuted out stem tail : (forall c, In c tail -> In c (s_ ".fit")) -> zred_file out (stem ++ tail ++ s_ ".fit") = zred_file out (stem ++ s_ ".fit").
Proof.
  intros H. unfold zred_file. do 3 f_equal. rewrite app_assoc, !rstrip_fit. revert H. induction tail as [|c t IH] using rev_ind; intros H; [rewrite app_nil_r; reflexivity|].
  rewrite app_assoc, rstrip_snoc. rewrite (proj2 (char_in_iff _ _) (H c ltac:(apply in_or_app; right; left; reflexivity))). apply IH. intros x I. apply H, in_or_app. left. exact I.
Qed.
Print Assumptions C175_zreds_refuted.
Example C175_names_example : zred_file (s_ "/out") (s_ "data/sdss_train.fit") = s_ "/out/sdss_train_zreds.fit" /\ zred_file (s_ "/out") (s_ "data/fit.fit") = s_ "/out/_zreds.fit" /\
  zred_file (s_ "/out") (s_ "data/trainit.fit") = zred_file (s_ "/out") (s_ "data/train.fit").
Proof. repeat split; vm_compute; reflexivity. Qed.
Local Open Scope R_scope.
(** a case: two galaxies with errors 3 and an intrinsic scatter that is found to be 1.4826 *)
Definition ex_libs : libs := mkL (fun z y start lo => match lo with None => map (fun _ => 0) start | Some b => map (fun _ => Rmax b 1) start end) (fun _ _ => 0).
Example C175_example : fit_bounded ex_libs /\ exists m, calc_medcol ex_libs true [0] [0] [mkCG (1/10) (-1) 3; mkCG (2/10) 1 3] = Ok m /\ nth_error (m_width m) 0 = Some (14826/10000) /\
  madR (map (fun g => c_col g - l_spl ex_libs (m_col m) (c_z g)) [mkCG (1/10) (-1) 3; mkCG (2/10) 1 3]) <= 14826/10000 /\ m_ratio m = 1/2.
Proof.
  assert (B : fit_bounded ex_libs). { intros z y start lo. cbn [ex_libs l_med]. rewrite map_length. split; [reflexivity|]. intros v I. apply in_map_iff in I as (x & <- & _). apply Rmax_l. }
  split; [exact B|]. destruct (C175_color ex_libs true [0] [0] [mkCG (1/10) (-1) 3; mkCG (2/10) 1 3] B ltac:(discriminate)) as (m & C & L & W & _ & _). exists m. split; [exact C|].
  assert (N : nth_error (m_width m) 0 = Some (14826/10000)).
  { rewrite (unfold_width _ _ _ _ _ _ C). cbn [ex_libs l_med map nth_error]. f_equal. unfold Rmax. destruct (Rle_dec (1/100) 1); lra. }
  split; [exact N|]. assert (M : madR (map (fun g => c_col g - l_spl ex_libs (m_col m) (c_z g)) [mkCG (1/10) (-1) 3; mkCG (2/10) 1 3]) <= 14826/10000).
  { cbn [map ex_libs l_spl c_col c_z]. unfold madR, medianR. cbn [map sortR insertR]. destruct (Rle_dec (-1 - 0) (1 - 0)) as [X|X]; [|lra]. cbn [List.length Nat.even Nat.div Nat.divmod fst snd Nat.sub nth].
    rewrite (Rabs_left (-1 - 0 - _)) by lra. rewrite (Rabs_pos_eq (1 - 0 - _)) by lra. destruct (Rle_dec _ _); cbn [List.length Nat.even Nat.div Nat.divmod fst snd Nat.sub nth]; lra. }
  split; [exact M|]. apply (C175_half_refuted ex_libs [0] [0] [mkCG (1/10) (-1) 3; mkCG (2/10) 1 3] m (14826/10000) 3 C N); [lra|lra| |left; exact M]. intros g [<-|[<-|[]]]; reflexivity.
Qed.
