(** C138, C139: writing a configuration and reading it back; the configuration written at the end of a calibration. *)
From Coq Require Import ZArith String QArith.
From Verif.Base Require Import Py PyLemmas.
From Verif.Model Require Import Config CfgYaml.
From Verif.Spec Require Import Config CfgYaml.
From Verif.Proofs Require Import Config CfgYaml.
From Coq Require Import Lia List. Import ListNotations.
Local Open Scope string_scope.
Local Open Scope nat_scope.

(** The written file has every option once, with its value. *)
Theorem C138_written s d : output_yaml s = Ok d -> NoDup (map fst d) /\
  (forall n, In n (map fst d) <-> option_name n) /\ (forall n v, In (n, v) d -> v = vals s n).
Proof.
  intros H. pose proof (dump_keys s d H) as K. unfold keys in K. rewrite K. split; [apply options_nodup|]. split.
  - intros n. rewrite in_map_iff. unfold option_name. split; intros (f & A & B); exists f; auto.
  - intros n v I. destruct (dump_all_ok s options d H) as [E _]. rewrite E in I. apply in_map_iff in I. destruct I as (f & Ef & _). congruence.
Qed.
Print Assumptions C138_written.
(** A file is written exactly if every array option holds an array; otherwise there is a TypeError. *)
Theorem C138_writable s : ((exists d, output_yaml s = Ok d) <-> (forall n, array_option n -> is_sequence (vals s n))) /\
  (forall e, output_yaml s = Err e -> e = TypeError).
Proof.
  split.
  - split.
    + intros (d & H) n (f & Hf & <- & Kf). apply (proj2 (dump_all_ok s options d H) f Hf Kf).
    + intros H. apply dump_all_total. intros f Hf Kf. apply H. exists f. auto.
  - unfold output_yaml. induction options as [|f l IH]; [discriminate|]. intros e H. cbn [dump_all] in H. unfold dump_one in H.
    destruct (f_kind f).
    + cbn [bind] in H. destruct (dump_all s l) as [r|e']; [discriminate|]. cbn [bind] in H. assert (e' = e) as -> by congruence. apply IH. reflexivity.
    + destruct (vals s (f_name f)) as [|a|x]; cbn [bind] in H; [congruence|congruence|]. destruct (dump_all s l) as [r|e']; [discriminate|]. cbn [bind] in H. assert (e' = e) as -> by congruence. apply IH. reflexivity.
    + cbn [bind] in H. destruct (dump_all s l) as [r|e']; [discriminate|]. cbn [bind] in H. assert (e' = e) as -> by congruence. apply IH. reflexivity.
Qed.
Print Assumptions C138_writable.
(** Finding: the softening parameters b are an array option that is None unless the galaxy file or the configuration
    gives them, and no galaxy file that is a single table gives them: such a configuration loads but cannot be written. *)
Theorem C138_softening_refuted E d o s0 s : statistics E -> load E d o s0 = (s, Ok tt) -> ~ In "b" (map fst d) ->
  (forall g r st v, e_stats E g r = Ok st -> In ("b", v) st -> v = VNone) -> output_yaml s = Err TypeError.
Proof.
  intros S H Hd Hb. assert (V : vals s "b" = VNone).
  { apply load_parts in H. destruct H as (a1 & st & st' & s3 & A1 & A2 & A3 & A4 & A5 & A6). pose proof (finish_ok E st s3 s (Ok tt) A6) as (K & _ & _).
    destruct (stat_apart "b") as [X Y]; [cbn; tauto|]. rewrite K by assumption.
    assert (V1 : vals (with_out o a1) "b" = VNone).
    { transitivity (vals a1 "b"); [destruct o; [apply put_other; discriminate|reflexivity]|]. replace a1 with (fst (set_vars false (reset s0) d)) by (rewrite A1; reflexivity).
      rewrite set_vars_vals by exact Hd. reflexivity. }
    assert (Hb' : forall v, In ("b", v) st' -> v = VNone).
    { intros v I. apply (Hb _ _ _ v A3). unfold area_stats in A4. destruct (vals (with_out o a1) "area") as [|x|x].
      - assert (st' = st) as <-; [|exact I]. destruct (vals (with_out o a1) "depthfile"); [|congruence|congruence].
        destruct (num (vals (with_out o a1) "nside")); [|discriminate]. cbn [bind] in A4. destruct (vlen (vals (with_out o a1) "hpix")); [|discriminate]. cbn [bind] in A4. destruct (_ && _)%bool in A4; congruence.
      - destruct (num (VAtom x)); [|discriminate]. cbn [bind] in A4. destruct (num (lookup st "area")); [|discriminate]. cbn [bind] in A4.
        destruct (Qlt_bool area_tol _) in A4; assert (Es : Ok st' = Ok st') by reflexivity; [|congruence]. assert (Ed : st' = drop st "area") by congruence. rewrite Ed in I. unfold drop in I. apply filter_In in I. apply I.
      - discriminate. }
    clear - A5 V1 Hb'. revert A5 V1 Hb'. generalize (with_out o a1). induction st' as [|[k w] l IH]; intros t A5 V1 Hb'; [cbn in A5; congruence|]. cbn [set_vars] in A5.
    destruct (true && _)%bool eqn:En; [eapply IH; [exact A5|exact V1|intros v I; apply Hb'; right; exact I]|].
    unfold set_one in A5. assert (Nk : k <> "b") by (intros ->; rewrite (Hb' w (or_introl eq_refl)) in En; discriminate).
    destruct (find_field k) as [f|].
    - destruct (convert (f_kind f) w) as [x|]; [|discriminate]. eapply IH; [exact A5|rewrite put_other by congruence; exact V1|intros v I; apply Hb'; right; exact I].
    - destruct (existsb (String.eqb k) methods); [|discriminate]. eapply IH; [exact A5|exact V1|intros v I; apply Hb'; right; exact I]. }
  destruct (C138_writable s) as [W1 W2]. destruct (output_yaml s) as [x|e] eqn:Ex; [|f_equal; apply W2; reflexivity].
  exfalso. assert (Q : array_option "b").
  { unfold array_option. destruct (find_field "b") as [f|] eqn:Ef; [|discriminate]. destruct (find_field_In _ _ Ef) as [I N]. exists f. split; [exact I|]. split; [exact N|].
    assert (Y : Some f = Some (mkField "b" KArray VNone false None)) by (rewrite <- Ef; reflexivity). assert (f = mkField "b" KArray VNone false None) as -> by congruence. reflexivity. }
  destruct (proj1 W1 (ex_intro _ x eq_refl) "b" Q) as (l & El). congruence.
Qed.
Print Assumptions C138_softening_refuted.
(** Reading back what was written gives the same configuration: every option has the value it had, whatever else was
    loaded or set in between, as long as the galaxy and the centering file are the same. *)
Theorem C138_round_trip E d o s0 s s1 d' : statistics E -> reachable s0 -> reachable s1 -> load E d o s0 = (s, Ok tt) -> numeric_range (vals s "zrange") ->
  output_yaml s = Ok d' -> exists s', load_file E (Some d') None s1 = (s', Ok tt) /\ forall n, vals s' n = vals s n.
Proof.
  intros S R0 R1 H Z D. apply (load_again E d o s0 s s1 d' S H D); [|exact Z]. intros n Hn. rewrite (reachable_lens s1 R1 n Hn), (reachable_lens s0 R0 n Hn). reflexivity.
Qed.
Print Assumptions C138_round_trip.
(** An empty file is a TypeError. *)
Theorem C138_empty E o s : snd (load_file E None o s) = Err TypeError.
Proof. reflexivity. Qed.
Print Assumptions C138_empty.

(** ** The configuration of the run *)
(** The options the end of a calibration sets. *)
Definition run_options : list string :=
  ["galfile"; "specfile"; "outbase"; "parfile"; "bkgfile"; "zredfile"; "zlambdafile"; "wcenfile"; "bkgfile_color"; "catfile"; "maskgalfile"; "redgalfile"; "redgalmodelfile";
   "seedfile"; "zmemfile"; "nside"; "hpix"; "border"; "area"].
(** After a calibration the configuration names the files of its last iteration and the whole sky without borders;
    everything else is as it was.  New redshifts are asked for if the calibration was on a region, a new background if
    also calib_make_full_bkg is set. *)
Theorem C139_run_configuration P s s' nb nz : output_configuration P s = Ok (s', (nb, nz)) ->
  vals s' "nside" = VAtom (ANum 0) /\ vals s' "hpix" = VSeq [] /\ vals s' "border" = VAtom (ANum 0) /\ vals s' "area" = VNone /\
  vals s' "catfile" = VNone /\ vals s' "seedfile" = VNone /\ vals s' "zmemfile" = VNone /\
  vals s' "outbase" = p_outbase P /\ vals s' "parfile" = p_pars P /\ vals s' "zlambdafile" = p_zlambda P /\ vals s' "wcenfile" = p_wcen P /\
  (forall n, In n ["galfile"; "specfile"; "bkgfile_color"; "maskgalfile"; "redgalfile"; "redgalmodelfile"] -> p_abs P (vals s n) = Ok (vals s' n)) /\
  (forall n, ~ In n run_options -> vals s' n = vals s n) /\
  exists q, num (vals s "nside") = Ok q /\ (nz = true <-> ~ (q == 0)%Q) /\ (nb = true <-> nz = true /\ truthy (vals s "calib_make_full_bkg") = true) /\
    vals s' "zredfile" = (if nz then p_zred_run P else p_zred_cal P) /\ vals s' "bkgfile" = (if nb then p_bkg_run P else p_bkg P).
Proof.
  unfold output_configuration, to_abs. cbn [puts]. intros H.
  destruct (p_abs P (vals s "galfile")) as [g|] eqn:E1; [|discriminate]. cbn [bind] in H. rewrite put_other in H by discriminate.
  destruct (p_abs P (vals s "specfile")) as [sp|] eqn:E2; [|discriminate]. cbn [bind] in H. rewrite !put_other in H by discriminate.
  destruct (num (vals s "nside")) as [q|] eqn:E3; [|discriminate]. cbn [bind] in H.
  destruct (Qeq_bool q 0) eqn:Eq; destruct (truthy (vals s "calib_make_full_bkg")) eqn:Et; cbn [negb andb] in H; rewrite !put_other in H by discriminate.
  all: destruct (p_abs P (vals s "bkgfile_color")) as [x1|] eqn:F1; [|discriminate]; cbn [bind] in H; rewrite !put_other in H by discriminate.
  all: destruct (p_abs P (vals s "maskgalfile")) as [x2|] eqn:F2; [|discriminate]; cbn [bind] in H; rewrite !put_other in H by discriminate.
  all: destruct (p_abs P (vals s "redgalfile")) as [x3|] eqn:F3; [|discriminate]; cbn [bind] in H; rewrite !put_other in H by discriminate.
  all: destruct (p_abs P (vals s "redgalmodelfile")) as [x4|] eqn:F4; [|discriminate]; cbn [bind] in H.
  all: match type of H with Ok (?x, (?y, ?z)) = _ => assert (Es : s' = x) by congruence; assert (nb = y) as -> by congruence; assert (nz = z) as -> by congruence end; clear H; subst s'.
  all: repeat (first [rewrite put_same | rewrite put_other by discriminate]).
  all: do 11 (split; [reflexivity|]).
  all: (split; [intros n [<-|[<-|[<-|[<-|[<-|[<-|[]]]]]]]; repeat (first [rewrite put_same | rewrite put_other by discriminate]); assumption|]).
  all: (split; [intros n Hn; repeat (rewrite put_other; [|intros ->; apply Hn; cbn; tauto]); reflexivity|]).
  all: exists q; (split; [reflexivity|]).
  - apply Qeq_bool_iff in Eq. split; [split; [discriminate|intros C; contradiction]|]. split; [intuition discriminate|]. split; reflexivity.
  - apply Qeq_bool_iff in Eq. split; [split; [discriminate|intros C; contradiction]|]. split; [intuition discriminate|]. split; reflexivity.
  - apply Qeq_bool_neq in Eq. split; [split; auto|]. split; [intuition|]. split; reflexivity.
  - apply Qeq_bool_neq in Eq. split; [split; auto|]. split; [intuition discriminate|]. split; reflexivity.
Qed.
Print Assumptions C139_run_configuration.
(** After a calibration on a region a background of the whole sky is made if calib_make_full_bkg is set, with the area of the galaxy file, in the file that the configuration of the run names. *)
Theorem C139_background P A s s' fl : output_configuration P s = Ok (s', fl) -> exists b, final_background P A s = Ok b /\
  match b with
  | Some k => k = mkBkgMade (p_bkg_run P) 0 [] A true /\ vals s' "bkgfile" = k_file k /\ truthy (vals s "calib_make_full_bkg") = true /\ exists q, num (vals s "nside") = Ok q /\ ~ (q == 0)%Q
  | None => vals s' "bkgfile" = p_bkg P /\ (truthy (vals s "calib_make_full_bkg") = false \/ exists q, num (vals s "nside") = Ok q /\ (q == 0)%Q)
  end.
Proof.
  intros H. destruct fl as [nb nz]. destruct (C139_run_configuration P s s' nb nz H) as (_ & _ & _ & _ & _ & _ & _ & _ & _ & _ & _ & _ & _ & q & Q0 & Z1 & B1 & _ & F).
  unfold final_background. rewrite H. cbn [bind]. eexists. split; [reflexivity|]. destruct nb; rewrite F.
  - destruct (proj1 B1 eq_refl) as [N T]. split; [reflexivity|]. split; [reflexivity|]. split; [exact T|]. exists q. split; [exact Q0|]. apply Z1, N.
  - split; [reflexivity|]. destruct (truthy (vals s "calib_make_full_bkg")); [|left; reflexivity]. right. exists q. split; [exact Q0|]. destruct nz; [exfalso; assert (K := proj2 B1 (conj eq_refl eq_refl)); discriminate|].
    destruct (Qeq_dec q 0) as [E|E]; [exact E|]. apply Z1 in E. discriminate.
Qed.
Print Assumptions C139_background.
(** Finding: without calib_make_full_bkg, a run on the whole sky is given the background of the region of the calibration. *)
Theorem C139_region_background_refuted P A s s' fl q : output_configuration P s = Ok (s', fl) -> num (vals s "nside") = Ok q -> ~ (q == 0)%Q -> truthy (vals s "calib_make_full_bkg") = false ->
  final_background P A s = Ok None /\ vals s' "bkgfile" = p_bkg P /\ vals s' "nside" = VAtom (ANum 0).
Proof.
  intros H N Q0 T. assert (K := C139_background P A s s' fl H). destruct K as ([k|] & E & K); [destruct K as (_ & _ & K & _); congruence|]. split; [exact E|]. split; [exact (proj1 K)|].
  destruct fl as [nb nz]. exact (proj1 (C139_run_configuration P s s' nb nz H)).
Qed.
Print Assumptions C139_region_background_refuted.
(** It is made exactly if the six files that become absolute paths are set and nside is a number. *)
Theorem C139_made P s : (exists r, output_configuration P s = Ok r) <->
  (forall n, In n ["galfile"; "specfile"; "bkgfile_color"; "maskgalfile"; "redgalfile"; "redgalmodelfile"] -> exists v, p_abs P (vals s n) = Ok v) /\
  (exists q, num (vals s "nside") = Ok q).
Proof.
  split.
  - intros ([s' [nb nz]] & H). destruct (C139_run_configuration P s s' nb nz H) as (_ & _ & _ & _ & _ & _ & _ & _ & _ & _ & _ & A & _ & q & B & _).
    split; [|exists q; exact B]. intros n Hn. eexists. apply A, Hn.
  - intros (A & q & Hq). unfold output_configuration, to_abs. cbn [puts].
    destruct (A "galfile") as (v1 & E1); [cbn; tauto|]. destruct (A "specfile") as (v2 & E2); [cbn; tauto|]. destruct (A "bkgfile_color") as (v3 & E3); [cbn; tauto|].
    destruct (A "maskgalfile") as (v4 & E4); [cbn; tauto|]. destruct (A "redgalfile") as (v5 & E5); [cbn; tauto|]. destruct (A "redgalmodelfile") as (v6 & E6); [cbn; tauto|].
    rewrite E1. cbn [bind]. rewrite put_other by discriminate. rewrite E2. cbn [bind]. rewrite !put_other by discriminate. rewrite Hq. cbn [bind].
    destruct (Qeq_bool q 0); destruct (truthy _); cbn [negb andb]; rewrite !put_other by discriminate; rewrite E3; cbn [bind]; rewrite !put_other by discriminate; rewrite E4; cbn [bind];
      rewrite !put_other by discriminate; rewrite E5; cbn [bind]; rewrite !put_other by discriminate; rewrite E6; cbn [bind]; eexists; reflexivity.
Qed.
Print Assumptions C139_made.
(** Read back, the configuration of the run is on the whole sky, with the area of the galaxy file and the options of the
    calibration that nothing sets. *)
Theorem C139_read_back E P d o s0 s s' fl f s1 s2 : statistics E -> reachable s0 -> load E d o s0 = (s, Ok tt) -> output_configuration P s = Ok (s', fl) ->
  output_yaml s' = Ok f -> load_file E (Some f) None s1 = (s2, Ok tt) ->
  vals s2 "nside" = VAtom (ANum 0) /\ vals s2 "hpix" = VSeq [] /\ vals s2 "border" = VAtom (ANum 0) /\ vals s2 "parfile" = p_pars P /\ vals s2 "outbase" = p_outbase P /\
  (exists st, e_stats E (vals s2 "galfile") (vals s2 "refmag") = Ok st /\ In ("area", vals s2 "area") st) /\
  (forall n, option_name n -> ~ In n run_options -> ~ In n filled -> ~ In n from_wcen -> ~ In n stat_names -> vals s2 n = vals s n).
Proof.
  intros S R0 H O D L. destruct fl as [nb nz]. pose proof (C139_run_configuration P s s' nb nz O) as (A1 & A2 & A3 & A4 & _ & _ & _ & A5 & A6 & _ & _ & _ & A7 & _).
  destruct (dump_all_ok s' options f D) as [Ef Af]. cbn [load_file read_yaml] in L.
  pose proof (load_lists E d o s0 s S H) as Ls.
  assert (Ls' : list_option_ok s').
  { intros g Hg Kg. rewrite A7; [apply Ls; assumption|]. intros I.
    assert (X : forallb (fun f => match f_kind f with KList => negb (existsb (String.eqb (f_name f)) run_options) | _ => true end) options = true) by reflexivity.
    rewrite forallb_forall in X. pose proof (X g Hg) as Y. rewrite Kg in Y. apply Bool.negb_true_iff in Y. exact (not_in_b _ _ Y I). }
  apply load_parts in L. destruct L as (a1 & st & st' & s3 & B1 & B2 & B3 & B4 & B5 & B6). cbn [with_out] in *.
  destruct (set_dump s' options (fun g Hg => Hg) (fun g Hg Hk => match f_kind g as k return f_kind g = k -> is_sequence (vals s' (f_name g)) with
     | KScalar => fun e => match Hk e with end | KArray => Af g Hg | KList => Ls' g Hg end eq_refl) (reset s1)) as (t & Et & Lt & Vt).
  rewrite <- Ef in Et. assert (a1 = t) as -> by congruence. clear B1.
  assert (V : forall n, option_name n -> vals t n = vals s' n).
  { intros n (g & Hg & <-). rewrite Vt. destruct (existsb _ options) eqn:Ex; [reflexivity|]. exfalso. rewrite <- Bool.not_true_iff_false in Ex. apply Ex, existsb_exists. exists g. split; [exact Hg|apply String.eqb_refl]. }
  pose proof (finish_ok E st s3 s2 (Ok tt) B6) as (K & _ & _). destruct (S _ _ _ B3) as (ND & INC & va & Hva & q & ->).
  assert (ON : forall n, known n = true -> option_name n) by (intros n E1; unfold known in E1; destruct (find_field n) as [g|] eqn:Eg; [|discriminate]; destruct (find_field_In _ _ Eg) as [X Y]; exists g; auto).
  assert (St : st' = st).
  { unfold area_stats in B4. rewrite (V "area" (ON "area" eq_refl)), A4 in B4. rewrite (V "nside" (ON "nside" eq_refl)), A1, (V "hpix" (ON "hpix" eq_refl)), A2 in B4. assert (B4' : Ok st = Ok st') by (destruct (vals t "depthfile"); exact B4). congruence. }
  subst st'.
  assert (Keep : forall n, option_name n -> ~ In n filled -> ~ In n from_wcen -> ~ In n stat_names -> vals s2 n = vals s' n).
  { intros n Ho N1 N2 N3. rewrite K by assumption. replace s3 with (fst (set_vars true t st)) by (rewrite B5; reflexivity). rewrite set_vars_vals by (intros I; apply N3, INC, I). apply V, Ho. }
  assert (Kb : forall n, known n = true -> existsb (String.eqb n) (filled ++ from_wcen ++ stat_names)%list = false -> vals s2 n = vals s' n).
  { intros n E1 Hn. pose proof (not_in_b _ _ Hn) as X. rewrite !in_app_iff in X. apply Keep; [exact (ON _ E1)|tauto|tauto|tauto]. }
  split; [rewrite <- A1; exact (Kb "nside" eq_refl eq_refl)|]. split; [rewrite <- A2; exact (Kb "hpix" eq_refl eq_refl)|]. split; [rewrite <- A3; exact (Kb "border" eq_refl eq_refl)|].
  split; [rewrite <- A6; exact (Kb "parfile" eq_refl eq_refl)|]. split; [rewrite <- A5; exact (Kb "outbase" eq_refl eq_refl)|]. split.
  - exists st. rewrite (Kb "galfile" eq_refl eq_refl), (Kb "refmag" eq_refl eq_refl), <- (V "galfile" (ON "galfile" eq_refl)), <- (V "refmag" (ON "refmag" eq_refl)). split; [exact B3|].
    destruct (stat_apart "area") as [X Y]; [cbn; tauto|]. rewrite K by assumption.
    rewrite (set_vars_get st t s3 "area" (VAtom (ANum q)) B5 ND Hva ltac:(discriminate) _ eq_refl eq_refl). exact Hva.
  - intros n Ho N0 N1 N2 N3. rewrite Keep by assumption. apply A7, N0.
Qed.
Print Assumptions C139_read_back.
(** Finding: only the galaxy and the spectroscopic file and files made by the calibration become absolute paths.  The output
    directory, the depth map, the mask, the volume-limit depth maps, the random points and the training spectra are left as
    they were: relative to the directory of the calibration, although the file is written to that of the run; and the
    output directory stays that of the calibration. *)
Theorem C139_relative_refuted P s s' fl : output_configuration P s = Ok (s', fl) ->
  forall n, In n ["outpath"; "depthfile"; "maskfile"; "vlim_depthfiles"; "randfile"; "specfile_train"] -> vals s' n = vals s n.
Proof.
  intros H n Hn. destruct fl as [nb nz]. destruct (C139_run_configuration P s s' nb nz H) as (_ & _ & _ & _ & _ & _ & _ & _ & _ & _ & _ & _ & A & _). apply A.
  intros I. cbn in I. destruct Hn as [<-|[<-|[<-|[<-|[<-|[<-|[]]]]]]]; intuition discriminate.
Qed.
Print Assumptions C139_relative_refuted.

(** A configuration with softening parameters: it loads, is written, and gives a configuration of the run. *)
Definition yaml_env : env := mkEnv (fun _ _ => Ok [("area", VAtom (ANum 100)); ("limmag_ref", VAtom (ANum (215 # 10))); ("galfile_pixelized", VAtom (ABool true)); ("survey_mode", VAtom (ANum 0));
   ("nmag", VAtom (ANum 2)); ("b", VSeq [ANum 1; ANum 1]); ("zeropoint", VAtom (ANum (225 # 10))); ("ref_ind", VAtom (ANum 1)); ("galfile_nside", VAtom (ANum 32));
   ("bands", VSeq [AStr "g"; AStr "r"]); ("galfile_has_truth", VAtom (ABool false)); ("galfile_has_zspec", VAtom (ABool false))])
   (fun _ => Some (mkWfile (fun c => VAtom (AStr c)) true)).
Definition yaml_dict : dict := [("galfile", VAtom (AStr "gal.fit")); ("refmag", VAtom (AStr "r")); ("outbase", VAtom (AStr "test_cal")); ("zrange", VSeq [ANum (5 # 100); ANum (6 # 10)]);
  ("nside", VAtom (ANum 2)); ("hpix", VSeq [ANum 7]); ("depthfile", VAtom (AStr "depth.hs")); ("specfile", VAtom (AStr "spec.fit")); ("bkgfile_color", VAtom (AStr "c.fit")); ("redgalfile", VAtom (AStr "r.fit"));
  ("redgalmodelfile", VAtom (AStr "m.fit")); ("area", VAtom (ANum 20))].
Definition yaml_paths : paths := mkPaths (fun v => match v with VAtom (AStr t) => Ok (VAtom (AStr ("/x/" ++ t))) | _ => Err TypeError end)
  (VAtom (AStr "test_run")) (VAtom (AStr "p")) (VAtom (AStr "b")) (VAtom (AStr "b2")) (VAtom (AStr "z")) (VAtom (AStr "z2")) (VAtom (AStr "zl")) (VAtom (AStr "w")).
Definition first {A B} (p : A * B) : A := fst p.
Example C138_example : statistics yaml_env /\ snd (load yaml_env yaml_dict None fresh_store) = Ok tt /\ numeric_range (vals (first (load yaml_env yaml_dict None fresh_store)) "zrange") /\
  (exists d', output_yaml (first (load yaml_env yaml_dict None fresh_store)) = Ok d') /\ vals (first (load yaml_env yaml_dict None fresh_store)) "area" = VAtom (ANum 20) /\
  match output_configuration yaml_paths (first (load yaml_env yaml_dict None fresh_store)) with
  | Ok (s', fl) => match output_yaml s' with
                   | Ok d' => snd (load_file yaml_env (Some d') None s') = Ok tt /\ vals (first (load_file yaml_env (Some d') None s')) "area" = VAtom (ANum 100) /\ fl = (true, true) /\
                              vals s' "depthfile" = VAtom (AStr "depth.hs") /\ vals s' "galfile" = VAtom (AStr "/x/gal.fit")
                   | Err _ => False
                   end
  | Err _ => False
  end.
Proof.
  split.
  - intros g r st H. unfold yaml_env in H. cbn [e_stats] in H. injection H as <-. cbn [map fst]. split; [repeat constructor; cbn; intuition discriminate|].
    split; [intros n Hn; cbn in Hn |- *; tauto|]. exists (VAtom (ANum 100)). split; [left; reflexivity|exists 100%Q; reflexivity].
  - split; [vm_compute; reflexivity|]. split; [exists (5 # 100)%Q, (6 # 10)%Q; vm_compute; reflexivity|]. split; [apply C138_writable|].
    + assert (X : forallb (fun f => match f_kind f, vals (first (load yaml_env yaml_dict None fresh_store)) (f_name f) with KArray, VSeq _ => true | KArray, _ => false | _, _ => true end) options = true) by (vm_compute; reflexivity).
      intros n (f & Hf & <- & Kf). rewrite forallb_forall in X. apply X in Hf. rewrite Kf in Hf. destruct (vals _ (f_name f)) as [| |l]; try discriminate. exists l. reflexivity.
    + split; [vm_compute; reflexivity|]. vm_compute. repeat split; reflexivity.
Qed.
