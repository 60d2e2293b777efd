(** Properties C83, C84, C85 (run_firstpass.py, RunFirstPass). *)
From Coq Require Import QArith Qabs.
From Verif.Base Require Import Py PyLemmas.
From Verif.Model Require Import FirstPass.
From Verif.Spec Require Import FirstPass.
From Verif.Proofs Require Import FirstPass.
From Coq Require Import Lqa Lia List. Import ListNotations.
Local Open Scope nat_scope.

(** C83.  With a seed file: one cluster per usable seed (and, with cleaninput, one that is inside the mask), in the
    order of the file and with the seed's values; no catalog when there is none. *)
Theorem C83_from_seedfile : forall f mstar dm inmask zreds seeds gals,
  exists kept,
    keeps (fun s => usable f (sd_zred s) (sd_chisq s) /\ (fc_clean f = true -> inmask (sd_ra s) (sd_dec s) = true)) seeds kept /\
    (kept = [] -> more_setup f mstar dm inmask zreds (Some seeds) gals = Ok None) /\
    (kept <> [] -> exists c, more_setup f mstar dm inmask zreds (Some seeds) gals = Ok (Some c) /\
       Forall2 (made_of_seed f) kept (cc_rows c)).
Proof.
  intros f mstar dm inmask zreds seeds gals.
  exists (filter (fun s => cuse f (sd_zred s) (sd_chisq s) && (negb (fc_clean f) || inmask (sd_ra s) (sd_dec s))) seeds).
  split; [|split].
  - apply keeps_filter. intros s. rewrite andb_true_iff, cuse_iff, orb_true_iff, negb_true_iff.
    destruct (fc_clean f); split; intros [H1 H2]; (split; [exact H1|]); auto; destruct H2; auto; discriminate.
  - intros E. cbn [more_setup]. rewrite from_seeds_eq. rewrite E. reflexivity.
  - intros E. cbn [more_setup]. rewrite from_seeds_eq.
    destruct (filter _ seeds) as [|x l]; [contradiction|]. eexists. split; [reflexivity|]. cbn [cc_rows].
    clear E. induction (x :: l) as [|y t IH]; cbn [map]; constructor; [|exact IH].
    unfold made_of_seed, row_of_seed; cbn. repeat split; destruct (fc_spec f); congruence.
Qed.
Print Assumptions C83_from_seedfile.

(** C83.  Without one: one cluster per galaxy with a usable photometric redshift that is brighter than the luminosity
    limit at that redshift, in the order of the galaxies; no catalog when there is none. *)
Theorem C83_from_galaxies : forall f mstar dm inmask gals, fc_spec f = false ->
  exists kept,
    keeps (fun g => usable f (g_zred g) (g_chisq g) /\ (g_refmag g < mstar (g_zred g) - dm)%Q) gals kept /\
    (kept = [] -> more_setup f mstar dm inmask true None gals = Ok None) /\
    (kept <> [] -> exists c, more_setup f mstar dm inmask true None gals = Ok (Some c) /\
       Forall2 made_of_gal kept (cc_rows c)).
Proof.
  intros f mstar dm inmask gals Hs.
  exists (filter (fun g => cuse f (g_zred g) (g_chisq g) && Qlt_bool (g_refmag g) (mstar (g_zred g) - dm)) gals).
  split; [|split].
  - apply keeps_filter. intros g. rewrite andb_true_iff, cuse_iff, Qltb_iff. reflexivity.
  - intros E. cbn [more_setup]. rewrite Hs, from_gals_eq, E. reflexivity.
  - intros E. cbn [more_setup]. rewrite Hs, from_gals_eq.
    destruct (filter _ gals) as [|x l]; [contradiction|]. eexists. split; [reflexivity|]. cbn [cc_rows].
    clear E. induction (x :: l) as [|y t IH]; cbn [map]; constructor; [|exact IH].
    unfold made_of_gal, row_of_gal; cbn. repeat split.
Qed.
Print Assumptions C83_from_galaxies.

(** C83.  The run is refused exactly when there is neither a seed file nor anything that may replace it. *)
Theorem C83_refused : forall f mstar dm inmask zreds seedfile gals e,
  more_setup f mstar dm inmask zreds seedfile gals = Err e <->
  e = RuntimeError /\ seedfile = None /\ (fc_spec f = true \/ zreds = false).
Proof.
  intros f mstar dm inmask zreds [seeds|] gals e; cbn [more_setup].
  - split; [discriminate|intros (_ & h & _); discriminate].
  - destruct (fc_spec f), zreds; split; intros H; try discriminate H;
      try (injection H as <-; auto); try (destruct H as (-> & _); reflexivity); try (destruct H as (_ & _ & [H|H]); discriminate).
Qed.
Print Assumptions C83_refused.

(** Finding: cleaninput (keep only positions inside the survey mask) has no effect without a seed file: the catalog
    is the same whatever the mask and whatever the flag. *)
Theorem C83_cleaninput_refuted : forall f mstar dm inmask inmask' zreds gals clean,
  more_setup (mkFC (fc_zlo f) (fc_zhi f) (fc_chisqmax f) (fc_r0 f) (fc_beta f) (fc_minlambda f) (fc_niter f) (fc_spec f) (fc_keepz f) clean)
    mstar dm inmask' zreds None gals = more_setup f mstar dm inmask zreds None gals.
Proof. reflexivity. Qed.
Print Assumptions C83_cleaninput_refuted.

(** Finding: the seeds are cut on their photometric redshift also in specmode, where the spectroscopic one is used:
    seeds whose photometric redshift is not set (-1, as selectspecseeds writes without zreds) give no catalog ... *)
Theorem C83_spec_unset_refuted : forall f mstar dm inmask zreds seeds gals, (0 <= fc_zlo f)%Q ->
  (forall s, In s seeds -> sd_zred s == -1)%Q -> more_setup f mstar dm inmask zreds (Some seeds) gals = Ok None.
Proof.
  intros f mstar dm inmask zreds seeds gals H0 H. cbn [more_setup]. rewrite from_seeds_eq.
  replace (filter _ seeds) with (@nil seed); [reflexivity|]. symmetry.
  induction seeds as [|s seeds IH]; cbn; [reflexivity|].
  destruct (cuse f (sd_zred s) (sd_chisq s)) eqn:E; cbn.
  - apply cuse_iff in E. destruct E as (E & _). specialize (H s (or_introl eq_refl)). lra.
  - apply IH. intros x Hx. apply H. right; exact Hx.
Qed.
Print Assumptions C83_spec_unset_refuted.
(** Finding: ... and a seed with a good photometric redshift but no spectroscopic one (zspec <= 0) stays in and stops
    the run with a TypeError when its turn comes. *)
Theorem C83_spec_crash_refuted : forall f mstar dm inmask zreds seeds gals c r, fc_spec f = true ->
  more_setup f mstar dm inmask zreds (Some seeds) gals = Ok (Some c) -> In r (cc_rows c) -> (c_zspec r <= 0)%Q ->
  start r = Err TypeError.
Proof.
  intros f mstar dm inmask zreds seeds gals c r Hs E Hr Hz. cbn [more_setup] in E. rewrite from_seeds_eq in E.
  assert (Hrow : c_z r = c_zspec r).
  { destruct (filter _ seeds) as [|x l] eqn:Ef; [discriminate|]. injection E as <-. cbn [cc_rows] in Hr.
    change (In r (map (row_of_seed f) (x :: l))) in Hr. apply in_map_iff in Hr. destruct Hr as (s & <- & _). cbn. rewrite Hs. reflexivity. }
  unfold start. destruct (Qlt_bool 0 (c_z r)) eqn:E2; [|reflexivity]. apply Qltb_iff in E2. rewrite Hrow in E2. lra.
Qed.
Print Assumptions C83_spec_crash_refuted.

(** C84.  With a seed file the clusters have the radius constants configured for the first pass. *)
Theorem C84_radius_partial : forall f mstar dm inmask zreds seeds gals c,
  more_setup f mstar dm inmask zreds (Some seeds) gals = Ok (Some c) ->
  cluster_r0 c = fc_r0 f /\ cluster_beta c = fc_beta f.
Proof.
  intros f mstar dm inmask zreds seeds gals c E. cbn [more_setup] in E. rewrite from_seeds_eq in E.
  destruct (filter _ seeds); [discriminate|]. injection E as <-. split; reflexivity.
Qed.
Print Assumptions C84_radius_partial.

(** Finding: without a seed file the configured firstpass_r0 and firstpass_beta are not handed on: every first pass
    from galaxies uses r0 = 1.0 and beta = 0.2, whatever is configured (0.5 and 0.0 are the defaults). *)
Theorem C84_radius_refuted : forall f mstar dm inmask zreds gals c,
  more_setup f mstar dm inmask zreds None gals = Ok (Some c) -> cluster_r0 c = 1%Q /\ cluster_beta c = (2 # 10)%Q.
Proof.
  intros f mstar dm inmask zreds gals c E. cbn [more_setup] in E. destruct (fc_spec f); [discriminate|].
  destruct zreds; [|discriminate]. rewrite from_gals_eq in E. destruct (filter _ gals); [discriminate|].
  injection E as <-. split; reflexivity.
Qed.
Print Assumptions C84_radius_refuted.

(** C85.  The work on one cluster: measurements are made in succession, each at the redshift the one before it found
    (with keepz: all at the first), until the wanted number is reached or one is not acceptable.  Accepted: all were
    acceptable, and the record holds the last one's richness, redshift and error; rejected: the last made was not
    acceptable, and richness, redshift and error are -1.  The chi-squared is the nearest neighbor's. *)
Theorem C85_course : forall f o nbs r z0, (0 <= fc_zlo f)%Q -> wanted f <> 0%nat -> (forall z, nbs z <> []) ->
  exists rec ms x, process f o nbs r z0 = Ok rec /\ ms <> [] /\
    ((fr_bad rec = false /\ Forall (acceptable f) ms /\ length ms = wanted f /\
      (exists m z', course f o 0 z0 ms z' /\ nth_error ms (length ms - 1) = Some m /\
        fr_lambda rec = m_lam m /\ fr_zl rec = m_z m /\ fr_zle rec = m_ze m /\ fr_niter rec = m_n m /\ nearest (nbs z') x)) \/
     (fr_bad rec = true /\ fr_lambda rec = (-1)%Q /\ fr_zl rec = (-1)%Q /\ fr_zle rec = (-1)%Q /\ fr_niter rec = 0%nat /\
      length ms <= wanted f /\
      (exists ms0 m z', ms = ms0 ++ [m] /\ course f o 0 z0 ms z' /\ Forall (acceptable f) ms0 /\ ~ acceptable f m /\ nearest (nbs (m_at m)) x))) /\
    fr_chisq rec = snd x /\
    fr_z rec = (if fc_spec f then c_zspec r else fr_zl rec).
Proof.
  intros f o nbs r z0 H0 Hw Hn. unfold process. change (maxiter f) with (wanted f).
  destruct (iter_spec f o H0 (wanted f) 0 (mkF z0 0 None)) as (s' & bad & -> & D). cbn [bind].
  destruct (argmin_nearest (nbs (f_z s')) (Hn _)) as (k & x & Ek & Ex & Hx).
  destruct D as [(-> & ms & Hl & Hc & Ha & _ & Hlast)|(-> & Hlam & ms & m & Hl & Hc & Ha & Hna & Hat)].
  - destruct (Hlast Hw) as (m & Hm & Hlam & El). rewrite El. cbn [bind]. rewrite Ek. cbn [bind]. rewrite Ex. cbn [bind].
    eexists. exists ms, x. split; [reflexivity|]. split; [intros ->; cbn in Hl; congruence|]. cbn [fr_bad fr_lambda fr_zl fr_zle fr_niter fr_chisq fr_z].
    split; [|split; reflexivity]. left. split; [reflexivity|]. split; [exact Ha|]. split; [exact Hl|].
    exists m, (f_z s'). split; [exact Hc|]. rewrite Hl. split; [exact Hm|]. repeat split; auto.
  - cbn [bind]. rewrite Ek. cbn [bind]. rewrite Ex. cbn [bind].
    eexists. exists (ms ++ [m]), x. split; [reflexivity|]. split; [intros h; apply app_eq_nil in h; destruct h; discriminate|].
    cbn [fr_bad fr_lambda fr_zl fr_zle fr_niter fr_chisq fr_z].
    split; [|split; reflexivity]. right. split; [reflexivity|]. split; [exact Hlam|]. split; [reflexivity|]. split; [reflexivity|].
    split; [reflexivity|]. split; [rewrite app_length; cbn; lia|].
    exists ms, m, (next_at f m). split; [reflexivity|]. split; [exact Hc|]. split; [exact Ha|]. split; [exact Hna|]. rewrite <- Hat. exact Hx.
Qed.
Print Assumptions C85_course.

(** Finding: with firstpass_niter = 0 (outside specmode) the first cluster stops the run with an UnboundLocalError. *)
Theorem C85_no_iterations_refuted : forall f o nbs r z0, wanted f = 0%nat -> process f o nbs r z0 = Err UnboundLocalError.
Proof. intros f o nbs r z0 H. unfold process. change (maxiter f) with (wanted f). rewrite H. reflexivity. Qed.
Print Assumptions C85_no_iterations_refuted.

(** Finding: the richness recorded is not that at the redshift recorded: the redshift is updated after the richness
    was measured, also in the last iteration.  Whenever the last redshift found differs from where it was measured,
    the recorded richness belongs to the latter. *)
Theorem C85_lambda_at_old_redshift_refuted : exists f o nbs r z0 rec,
  process f o nbs r z0 = Ok rec /\ fr_bad rec = false /\ (forall k, fr_lambda rec <> fst (o_rich o k (fr_zl rec))).
Proof.
  exists (mkFC (1#20) (3#5) 20 (1#2) 0 5 1 false false false).
  exists (mkO (fun _ z => ((100 * z)%Q, 1%Q)) (fun _ z => ((z + (1#10))%Q, (1#100)%Q, 3%nat))).
  exists (fun _ => [((1#2)%Q, 4%Q); ((1#10)%Q, 2%Q)]), (mkRow 0 0 0 18 (1#5) (1#50) 3 3 0 0 (1#5) (1#5)), (1#5)%Q.
  eexists. split; [vm_compute; reflexivity|]. split; [reflexivity|]. intros k. vm_compute. discriminate.
Qed.
Print Assumptions C85_lambda_at_old_redshift_refuted.

(** cases that meet the hypotheses *)
Definition ex_f : fconf := mkFC (1#20) (3#5) 20 (1#2) 0 5 2 false false true.
Definition ex_seeds : list seed :=
  [ mkSeed 10 1 0 18 (1#5) (1#50) 3 0 (1#4); mkSeed 11 1 0 18 (7#10) (1#50) 3 0 (1#4);
    mkSeed 12 1 0 18 (1#5) (1#50) 20 0 (1#4); mkSeed 13 1 0 18 (3#5) (1#50) 3 0 (1#4); mkSeed 50 1 0 18 (3#10) (1#50) 3 0 (1#4) ].
Example C83_ex_seeds : exists c,
  more_setup ex_f (fun z => 18 + 5 * z)%Q (1#2) (fun ra _ => Qlt_bool ra 20) true (Some ex_seeds) [] = Ok (Some c) /\
  map c_ra (cc_rows c) = [10; 13]%Q /\ cluster_r0 c = (1#2)%Q.
Proof. eexists. split; [vm_compute; reflexivity|]. split; reflexivity. Qed.
Example C83_ex_gals : exists c,
  more_setup ex_f (fun z => 18 + 5 * z)%Q (1#2) (fun ra _ => Qlt_bool ra 20) true None
    [mkGal 1 0 0 17 (1#5) (1#50) 3; mkGal 2 0 0 19 (1#5) (1#50) 3; mkGal 30 0 0 17 (1#5) (1#50) 3] = Ok (Some c) /\
  map c_ra (cc_rows c) = [1; 30]%Q /\ cluster_r0 c = 1%Q /\ fc_r0 ex_f = (1#2)%Q.
Proof. eexists. split; [vm_compute; reflexivity|]. repeat split. Qed.
Example C85_ex : exists rec,
  process ex_f (mkO (fun _ z => ((100 * z)%Q, 1%Q)) (fun _ z => ((z + (1#10))%Q, (1#100)%Q, 3%nat)))
    (fun _ => [((1#2)%Q, 4%Q); ((1#10)%Q, 2%Q)]) (mkRow 0 0 0 18 (1#5) (1#50) 3 3 0 0 (1#5) (1#5)) (1#5) = Ok rec /\
  fr_bad rec = false /\ (fr_zl rec == 2 # 5)%Q /\ fr_chisq rec = 2%Q /\ (0 <= fc_zlo ex_f)%Q /\ wanted ex_f = 2.
Proof.
  eexists. split; [vm_compute; reflexivity|]. split; [reflexivity|]. split; [reflexivity|]. split; [reflexivity|].
  split; [discriminate|reflexivity].
Qed.
(** A cluster without neighbors at the redshift where its work ends stops the run with a ValueError, whether it was accepted or not. *)
Theorem C85_no_neighbors_refuted : forall f o nbs r z0, (0 <= fc_zlo f)%Q -> wanted f <> 0%nat -> (forall z, nbs z = []) -> process f o nbs r z0 = Err ValueError.
Proof.
  intros f o nbs r z0 H0 Hw Hn. unfold process. change (maxiter f) with (wanted f).
  destruct (iter_spec f o H0 (wanted f) 0 (mkF z0 0 None)) as (s' & bad & -> & D). cbn [bind].
  destruct D as [(-> & ms & Hl & Hc & Ha & _ & Hlast)|(-> & Hlam & ms & m & Hl & Hc & Ha & Hna & Hat)].
  - destruct (Hlast Hw) as (m & Hm & Hlam & El). rewrite El. cbn [bind]. rewrite Hn. reflexivity.
  - cbn [bind]. rewrite Hn. reflexivity.
Qed.
Print Assumptions C85_no_neighbors_refuted.
