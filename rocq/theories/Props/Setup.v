(** C125, C126: the set-up of a run over clusters. *)
From Coq Require Import QArith.
From Verif.Base Require Import Py PyLemmas.
From Verif.Model Require Import Galfile Setup.
From Verif.Model Require Richness.
From Verif.Spec Require Import Galfile.
From Verif.Proofs Require Import Galfile.
From Verif.Proofs Require Richness.
From Coq Require Import Lqa Lia List. Import ListNotations.
Local Open Scope Q_scope.

(** * C125 *)
(** C125, for a galaxy file in pixels: whether temporary files are used or not, the galaxies of a run are those of the region that are
    strictly inside of the magnitude range and, if the run says so and has zreds, below the largest chi-squared; in their order. *)
Theorem C125_galaxies_partial : forall r c zred g nt tab all lo hi, consistent tab ->
  read (Pix g nt tab) (mkA (c_nside c) (c_hpix c) (c_border c) zred false (- (1000), 1000) (inject_Z (10 ^ 100))) = Ok all ->
  mag_range r c = Ok (lo, hi) ->
  (zred = true -> forall o, In o all -> exists z, snd o = Some z /\ zchi z < inject_Z (10 ^ 100)) ->
  exists keep, run_gals r c zred (Pix g nt tab) = Ok (filter keep all) /\
    forall o, In o all -> (keep o = true <-> lo < rmag (fst o) /\ rmag (fst o) < hi /\ (zred = true -> n_chisq r = true -> exists z, snd o = Some z /\ zchi z < c_chimax c)).
Proof.
  intros r c zred g nt tab all lo hi Hc Hr Hm Hz. unfold run_gals. rewrite Hm. cbn [bind fst snd].
  set (p := fun o : orow => Qlt_bool lo (rmag (fst o)) && Qlt_bool (rmag (fst o)) hi && (if zred && n_chisq r then match snd o with Some z => Qlt_bool (zchi z) (c_chimax c) | None => false end else true)).
  assert (P : forall o, p o = true <-> lo < rmag (fst o) /\ rmag (fst o) < hi /\ (zred = true -> n_chisq r = true -> exists z, snd o = Some z /\ zchi z < c_chimax c)).
  { intros o. unfold p. rewrite !andb_true_iff, !Qlt_bool_iff. destruct zred; cbn [andb].
    - destruct (n_chisq r).
      + destruct (snd o) as [z|].
        * rewrite Qlt_bool_iff. split; [intros [[A B] C]; repeat split; eauto|]. intros (A & B & C). destruct (C eq_refl eq_refl) as (z' & E & L). injection E as <-. auto.
        * split; [intros [_ F]; discriminate|]. intros (_ & _ & C). destruct (C eq_refl eq_refl) as (z' & E & _). discriminate.
      + split; [intros [[A B] _]; repeat split; try assumption; discriminate|intros (A & B & _); auto].
    - split; [intros [[A B] _]; repeat split; try assumption; discriminate|intros (A & B & _); auto]. }
  destruct (c_temp c).
  - cbn [read] in *. set (a := mkA (c_nside c) (c_hpix c) (c_border c) zred true (lo, hi) (if n_chisq r then c_chimax c else huge)).
    assert (R : from_galfile g nt tab (set_temp a false) = Ok all) by exact Hr.
    pose proof (tempfile_equiv g nt tab a all Hc R) as T. exists (cut a). split; [exact T|].
    intros o Ho. rewrite <- P. unfold cut, p, a. cbn [a_magrange a_zred a_chimax fst snd]. destruct zred; cbn [andb]; [|tauto].
    destruct (Hz eq_refl o Ho) as (z & -> & Hh). destruct (n_chisq r); [tauto|]. assert (L : Qlt_bool (zchi z) huge = true) by (apply Qlt_bool_iff; exact Hh). rewrite L. tauto.
  - unfold huge. rewrite Hr. cbn [bind]. exists p. split; [reflexivity|]. intros o _. apply P.
Qed.
Print Assumptions C125_galaxies_partial.
(** C125, in pixels: the set-up of a run is the same with and without temporary files. *)
Theorem C125_mode_partial : forall {D} r zf chimax bins nside hpix border g nt tab all (depth : res D) local, consistent tab ->
  let c t := mkConf zf t chimax bins nside hpix border in
  read (Pix g nt tab) (mkA nside hpix border (n_zreds r && zf) false (- (1000), 1000) (inject_Z (10 ^ 100))) = Ok all ->
  (n_zreds r && zf = true -> forall o, In o all -> exists z, snd o = Some z /\ zchi z < inject_Z (10 ^ 100)) ->
  setup r (c true) (Pix g nt tab) depth local = setup r (c false) (Pix g nt tab) depth local.
Proof.
  intros D r zf chimax bins nside hpix border g nt tab all depth local Hc c Hr Hz.
  assert (E : run_gals r (c true) (n_zreds r && zf) (Pix g nt tab) = run_gals r (c false) (n_zreds r && zf) (Pix g nt tab)).
  { destruct (mag_range r (c true)) as [[lo hi]|e] eqn:M; [|unfold run_gals; change (mag_range r (c false)) with (mag_range r (c true)); rewrite M; reflexivity].
    destruct (C125_galaxies_partial r (c true) _ g nt tab all lo hi Hc Hr M Hz) as (k1 & E1 & K1).
    destruct (C125_galaxies_partial r (c false) _ g nt tab all lo hi Hc Hr M Hz) as (k2 & E2 & K2). rewrite E1, E2. f_equal.
    assert (K : forall o, In o all -> k1 o = k2 o) by (intros o Ho; apply Bool.eq_iff_eq_true; rewrite (K1 o Ho), (K2 o Ho); reflexivity).
    clear - K. induction all as [|o l IH]; [reflexivity|]. cbn [filter]. rewrite (K o (or_introl eq_refl)), IH by (intros; apply K; right; assumption). reflexivity. }
  unfold setup. cbn [c_zredfile c]. change (c_zredfile (c true)) with zf. change (c_zredfile (c false)) with zf. rewrite E. reflexivity.
Qed.
Print Assumptions C125_mode_partial.
(** Finding: for a galaxy file that is not in pixels the cuts are dropped when temporary files are to be used: the run works on all
    galaxies, whatever their magnitude and chi-squared. *)
Theorem C125_mode_refuted : forall r c zred g rows zs lo hi, c_temp c = true -> mag_range r c = Ok (lo, hi) ->
  run_gals r c zred (Plain g rows zs) = read (Plain g rows zs) (mkA (c_nside c) (c_hpix c) (c_border c) zred false (- (1000), 1000) huge).
Proof. intros r c zred g rows zs lo hi Ht Hm. unfold run_gals. rewrite Hm, Ht. reflexivity. Qed.
Print Assumptions C125_mode_refuted.
Example C125_mode_ex : let g := mkGeo (fun _ => 0%Z) [] [] (fun z => z) 12 in let f := Plain g [mkRow 1 15 1; mkRow 2 30 2] None in
  run_gals runcat (mkConf false true 20 [12; 13; 14; 15; 16] 0 [] 0) false f = Ok [(mkRow 1 15 1, None); (mkRow 2 30 2, None)] /\
  run_gals runcat (mkConf false false 20 [12; 13; 14; 15; 16] 0 [] 0) false f = Ok [(mkRow 1 15 1, None)].
Proof. vm_compute. auto. Qed.
Example C125_pix_ex : let g := mkGeo (fun _ => 0%Z) [] [] (fun z => z) 12 in let f := Pix g 4 [mkE 3 2 [mkRow 1 15 1; mkRow 2 30 2] (Some [mkZ 1 7; mkZ 2 8])] in
  run_gals firstpass (mkConf true true 20 [12; 13; 14; 15; 16] 0 [] 0) true f = Ok [(mkRow 1 15 1, Some (mkZ 1 7))] /\
  run_gals firstpass (mkConf true false 20 [12; 13; 14; 15; 16] 0 [] 0) true f = Ok [(mkRow 1 15 1, Some (mkZ 1 7))].
Proof. vm_compute. auto. Qed.
(** C125: the range is that of the bins of the background, to the end of the last one, for the runs that ask for it. *)
Theorem C125_range : forall r c lo hi b0 w n, n_bkgrange r = Some true -> n_color r = false ->
  c_bins c = map (fun i => b0 + inject_Z (Z.of_nat i) * w) (seq 0 (S (S n))) ->
  mag_range r c = Ok (lo, hi) -> lo == b0 /\ hi == b0 + inject_Z (Z.of_nat (S (S n))) * w.
Proof.
  intros r c lo hi b0 w n Hb Hc Hbins E. unfold mag_range in E. rewrite Hb, Hc, Hbins in E. cbn [seq map] in E. injection E as <- E.
  assert (L : last (b0 + inject_Z (Z.of_nat 1) * w :: map (fun i => b0 + inject_Z (Z.of_nat i) * w) (seq 2 n)) (b0 + inject_Z (Z.of_nat 0) * w) = b0 + inject_Z (Z.of_nat (S n)) * w).
  { change (b0 + inject_Z (Z.of_nat 1) * w :: map (fun i => b0 + inject_Z (Z.of_nat i) * w) (seq 2 n)) with (map (fun i => b0 + inject_Z (Z.of_nat i) * w) (seq 1 (S n))).
    rewrite seq_S, map_app. cbn [map]. rewrite last_last. reflexivity. }
  cbn [last] in L. change (Z.of_nat 1) with 1%Z in L. change (Z.of_nat 0) with 0%Z in L. rewrite L in E. rewrite <- E. split; [change (inject_Z 0) with 0; ring|]. rewrite (Nat2Z.inj_succ (S n)). unfold Z.succ. rewrite inject_Z_plus. change (inject_Z 1) with 1. change (inject_Z 0) with 0. ring.
Qed.
Print Assumptions C125_range.
(** C125: what comes of the set-up: without galaxies there is no catalog; with a depth map it is used. *)
Theorem C125_result : forall {D} r c f (depth : res D) local gs, n_gals r = true -> (n_required r = true -> n_zreds r = true /\ c_zredfile c = true) ->
  run_gals r c (n_zreds r && c_zredfile c) f = Ok gs ->
  (gs = [] -> setup r c f depth local = Ok None) /\
  (forall d, gs <> [] -> depth = Ok d -> setup r c f depth local = Ok (Some (gs, FromMap d))).
Proof.
  intros D r c f depth local gs Hg Hq E. unfold setup. rewrite Hg. cbn [negb]. rewrite andb_false_r.
  assert (Q : n_required r && negb (n_zreds r && c_zredfile c) = false) by (destruct (n_required r); [destruct (Hq eq_refl) as [-> ->]; reflexivity|reflexivity]).
  rewrite Q, E. cbn [bind]. split; [intros ->; reflexivity|]. intros d Hn ->. destruct gs; [congruence|reflexivity].
Qed.
Print Assumptions C125_result.
(** C125: a run that needs zreds does not go on without them. *)
Theorem C125_required : forall {D} c f (depth : res D) local, c_zredfile c = false ->
  setup percolation c f depth local = Err RuntimeError /\ setup zscan c f depth local = Err RuntimeError /\ setup (likelihoods true) c f depth local = Err RuntimeError.
Proof. intros D c f depth local H. unfold setup. cbn [n_gals n_required n_zreds percolation zscan likelihoods negb]. rewrite H, !andb_false_r. cbn. auto. Qed.
Print Assumptions C125_required.
(** The other runs need none: without a file of redshifts they take the galaxies they read. *)
Theorem C125_not_required : forall {D} r c f (d : D) local gs, In r [colormem; firstpass; likelihoods false; runcat] -> c_zredfile c = false -> run_gals r c false f = Ok gs ->
  setup r c f (Ok d) local = Ok (match gs with [] => None | _ => Some (gs, FromMap d) end).
Proof.
  intros D r c f d local gs R Z E. assert (G : n_gals r = true /\ n_required r = false) by (destruct R as [<-|[<-|[<-|[<-|[]]]]]; split; reflexivity). destruct G as [G Q].
  unfold setup. rewrite G, Q, Z, !andb_false_r. cbn [negb andb]. rewrite E. cbn [bind]. destruct gs; reflexivity.
Qed.
Print Assumptions C125_not_required.
(** The run with the colors of members needs neither background nor redshifts, with or without temporary files: it takes all galaxies with
    magnitudes between -1000 and 1000. *)
Theorem C125_colors : forall {D} c g nt tab all (d : D) local, consistent tab ->
  read (Pix g nt tab) (mkA (c_nside c) (c_hpix c) (c_border c) false false (- (1000), 1000) (inject_Z (10 ^ 100))) = Ok all ->
  exists keep, (forall o, In o all -> (keep o = true <-> - (1000) < rmag (fst o) /\ rmag (fst o) < 1000)) /\
    setup colormem c (Pix g nt tab) (Ok d) local = Ok (match filter keep all with [] => None | _ => Some (filter keep all, FromMap d) end).
Proof.
  intros D c g nt tab all d local HC E.
  destruct (C125_galaxies_partial colormem c false g nt tab all (- (1000)) 1000 HC E eq_refl) as (keep & R & K); [discriminate|].
  exists keep. split.
  - intros o Ho. rewrite (K o Ho). split; [intros (A & B & _); auto|]. intros (A & B). repeat split; auto. discriminate.
  - destruct (C125_result colormem c (Pix g nt tab) (Ok d) local (filter keep all) eq_refl) as [A B]; [discriminate|exact R|]. destruct (filter keep all) as [|o l]; [apply A; reflexivity|apply B; [discriminate|reflexivity]].
Qed.
Print Assumptions C125_colors.
(** Finding: whatever goes wrong in reading the depth map - a missing file, a damaged one, a wrong setting - is swallowed, and the run
    goes on with depths from the galaxies. *)
Theorem C125_depth_refuted : forall {D} r c f e local gs (d : D), n_gals r = true -> (n_required r = true -> n_zreds r = true /\ c_zredfile c = true) ->
  run_gals r c (n_zreds r && c_zredfile c) f = Ok gs -> gs <> [] -> local gs = Ok d -> setup r c f (Err e) local = Ok (Some (gs, Local d)).
Proof.
  intros D r c f e local gs d Hg Hq E Hn Hl. unfold setup. rewrite Hg. cbn [negb andb].
  assert (Q : n_required r && negb (n_zreds r && c_zredfile c) = false) by (destruct (n_required r); [destruct (Hq eq_refl) as [-> ->]; reflexivity|reflexivity]).
  rewrite Q, E. cbn [bind]. destruct gs; [congruence|]. rewrite Hl. reflexivity.
Qed.
Print Assumptions C125_depth_refuted.
(** Finding: the run for the mask of the randoms does not say whether galaxies are cut to the range of the background; without a depth
    file it reads galaxies and always ends with an AttributeError. *)
Theorem C125_randoms_refuted : forall {D} c f e (local : list orow -> res D), setup (randoms_zmask false) c f (Err e) local = Err AttributeError.
Proof. reflexivity. Qed.
Print Assumptions C125_randoms_refuted.
(** with a depth map that run reads no galaxies and needs none *)
Theorem C125_randoms : forall {D} c f (d : D) local, setup (randoms_zmask true) c f (Ok d) local = Ok (Some ([], FromMap d)).
Proof. reflexivity. Qed.
Print Assumptions C125_randoms.

(** * C126 *)
(** C126: a center takes its magnitudes from a galaxy it was matched with; one without a match keeps what it had. *)
Theorem C126_matched : forall {A} (cat gals : list A) pairs,
  (forall p, In p pairs -> (fst p < List.length cat)%nat /\ (snd p < List.length gals)%nat) ->
  List.length (match_centers cat gals pairs) = List.length cat /\
  (forall i, ~ In i (map fst pairs) -> nth_error (match_centers cat gals pairs) i = nth_error cat i) /\
  (forall i, In i (map fst pairs) -> exists j, In (i, j) pairs /\ nth_error (match_centers cat gals pairs) i = nth_error gals j).
Proof.
  intros A cat gals pairs. unfold match_centers. revert cat. induction pairs as [|[i0 j0] l IH]; intros cat H; cbn [fold_left]; [split; [reflexivity|]; split; [reflexivity|intros i []]|].
  destruct (H (i0, j0) (or_introl eq_refl)) as [H1 H2]. cbn [fst snd] in *. destruct (nth_error gals j0) as [v|] eqn:E; [|apply nth_error_None in E; lia].
  assert (L : List.length (Richness.set_nth cat i0 v) = List.length cat) by apply Richness.set_nth_length.
  destruct (IH (Richness.set_nth cat i0 v)) as (I1 & I2 & I3); [intros p Hp; rewrite L; apply H; right; exact Hp|].
  split; [rewrite I1; exact L|]. split.
  - intros i Hi. cbn [map fst In] in Hi. rewrite I2 by tauto. apply Richness.set_nth_other. tauto.
  - intros i Hi. destruct (in_dec Nat.eq_dec i (map fst l)) as [Hl|Hl].
    + destruct (I3 i Hl) as (j & Hj & Ej). exists j. split; [right; exact Hj|exact Ej].
    + cbn [map fst In] in Hi. destruct Hi as [<-|Hi]; [|contradiction]. exists j0. split; [left; reflexivity|]. rewrite (I2 i0 Hl), E. apply Richness.set_nth_same, H1.
Qed.
Print Assumptions C126_matched.
(** C126, with one galaxy near the center: it is the one. *)
Theorem C126_single_partial : forall {A} (cat gals : list A) pairs i j,
  (forall p, In p pairs -> (fst p < List.length cat)%nat /\ (snd p < List.length gals)%nat) ->
  In (i, j) pairs -> (forall j', In (i, j') pairs -> j' = j) -> nth_error (match_centers cat gals pairs) i = nth_error gals j.
Proof.
  intros A cat gals pairs i j H Hi Hu. destruct (C126_matched cat gals pairs H) as (_ & _ & M). destruct (M i) as (j' & Hj & E); [apply in_map_iff; exists (i, j); auto|]. rewrite E, (Hu j' Hj). reflexivity.
Qed.
Print Assumptions C126_single_partial.
(** Finding: all galaxies within a second of arc are matched, not the nearest: with two of them the last in the order of the matches
    counts, so that another order gives other magnitudes. *)
Theorem C126_nearest_refuted : forall {A} (c g0 g1 : A),
  match_centers [c] [g0; g1] [(0, 0); (0, 1)]%nat = [g1] /\ match_centers [c] [g0; g1] [(0, 1); (0, 0)]%nat = [g0].
Proof. split; reflexivity. Qed.
Print Assumptions C126_nearest_refuted.
(** The runs: the first pass, the likelihoods and the run on given clusters also cut on the chi-squared if they have redshifts; the
    percolation and the scan do not. *)
Theorem C125_runs : forall c zred g nt tab all lo hi, consistent tab ->
  read (Pix g nt tab) (mkA (c_nside c) (c_hpix c) (c_border c) zred false (- (1000), 1000) (inject_Z (10 ^ 100))) = Ok all ->
  mag_range firstpass c = Ok (lo, hi) -> (zred = true -> forall o, In o all -> exists z, snd o = Some z /\ zchi z < inject_Z (10 ^ 100)) ->
  (forall r, In r [firstpass; likelihoods true; likelihoods false; runcat] -> exists keep, run_gals r c zred (Pix g nt tab) = Ok (filter keep all) /\
     forall o, In o all -> (keep o = true <-> lo < rmag (fst o) /\ rmag (fst o) < hi /\ (zred = true -> exists z, snd o = Some z /\ zchi z < c_chimax c))) /\
  (forall r, In r [percolation; zscan] -> exists keep, run_gals r c zred (Pix g nt tab) = Ok (filter keep all) /\
     forall o, In o all -> (keep o = true <-> lo < rmag (fst o) /\ rmag (fst o) < hi)).
Proof.
  intros c zred g nt tab all lo hi HC R M Hz. assert (M' : forall r, In r [firstpass; likelihoods true; likelihoods false; runcat; percolation; zscan] -> mag_range r c = Ok (lo, hi)).
  { intros r [<-|[<-|[<-|[<-|[<-|[<-|[]]]]]]]; exact M. }
  split; intros r I.
  - destruct (C125_galaxies_partial r c zred g nt tab all lo hi HC R) as (keep & K & S); [apply M'; cbn in I |- *; tauto|exact Hz|]. exists keep. split; [exact K|]. intros o Io. rewrite (S o Io).
    assert (n_chisq r = true) as ->. { destruct I as [<-|[<-|[<-|[<-|[]]]]]; reflexivity. } intuition.
  - destruct (C125_galaxies_partial r c zred g nt tab all lo hi HC R) as (keep & K & S); [apply M'; cbn in I |- *; tauto|exact Hz|]. exists keep. split; [exact K|]. intros o Io. rewrite (S o Io).
    assert (n_chisq r = false) as ->. { destruct I as [<-|[<-|[]]]; reflexivity. } intuition discriminate.
Qed.
Print Assumptions C125_runs.
(** A galaxy file that is not in pixels is read whole: every galaxy with its own redshift if they are asked for, which needs a table of
    redshifts (IOError) with as many rows (ValueError). *)
Theorem C125_plain : forall g rows zs a, check_args g (a_nside a) a = Ok tt ->
  (a_zred a = false -> read (Plain g rows zs) a = Ok (map (fun r => (r, None)) rows)) /\
  (a_zred a = true -> zs = None -> read (Plain g rows zs) a = Err IOError) /\
  (forall z, a_zred a = true -> zs = Some z -> List.length z <> List.length rows -> read (Plain g rows zs) a = Err ValueError) /\
  (forall z, a_zred a = true -> zs = Some z -> List.length z = List.length rows ->
     exists out, read (Plain g rows zs) a = Ok out /\ map fst out = rows /\ map snd out = map Some z).
Proof.
  intros g rows zs a H. unfold read. rewrite H. cbn [bind]. split; [intros ->; reflexivity|]. split; [intros -> ->; reflexivity|].
  split; intros z -> -> L; (destruct (Nat.eqb_spec (List.length z) (List.length rows)) as [E|E]; [|]); try reflexivity; try congruence.
  eexists. split; [reflexivity|]. clear -L. revert z L. induction rows as [|r rows IH]; intros [|y z] L; try discriminate L; [split; reflexivity|].
  destruct (IH z ltac:(cbn in L; lia)) as [A B]. cbn [map combine fst snd]. rewrite A, B. split; reflexivity.
Qed.
Print Assumptions C125_plain.
