(** C150, C151: the frame of the redMaGiC calibration; the check of files. *)
From Coq Require Import ZArith String.
From Verif.Base Require Import Py PyLemmas.
From Verif.Model Require Import RedRun.
From Verif.Spec Require Import RedRun.
From Verif.Proofs Require Import RedRun.
From Coq Require Import Lia List. Import ListNotations.

(** Without galaxies from the caller the calibration starts exactly if the galaxy file is in pixels and the redshifts and the cluster
    catalogue exist; with them it always starts. *)
Theorem C150_needs n : (check_needs n = Ok tt <-> n_gals n = true \/ (n_pixelized n = true /\ n_zred n = Some true /\ n_cat n = Some true)) /\
  (check_needs n <> Ok tt -> check_needs n = Err RuntimeError).
Proof. unfold check_needs. destruct n as [[|] [|] [[|]|] [[|]|] d m]; cbn; split; try tauto; split; try tauto; try discriminate; intros [H|(H1 & H2 & H3)]; discriminate. Qed.
Print Assumptions C150_needs.
(** The mask of a mode comes from the depth map if there is one, else from the geometry if there is one, else it is the whole area;
    the name recorded is its file's, and none for the whole area. *)
Theorem C150_masks n f : (n_depth n = Some true -> mode_mask n f = FromDepth f) /\ (n_depth n <> Some true -> n_mask n = Some true -> mode_mask n f = FromGeometry f) /\
  (n_depth n <> Some true -> n_mask n <> Some true -> mode_mask n f = Fixed) /\ (recorded_mask (mode_mask n f) = None <-> n_depth n <> Some true /\ n_mask n <> Some true) /\
  (recorded_mask (mode_mask n f) <> None -> recorded_mask (mode_mask n f) = Some f).
Proof. unfold mode_mask. destruct n as [a b c d [[|]|] [[|]|]]; cbn; repeat split; try congruence; try tauto; intros [H1 H2]; congruence. Qed.
Print Assumptions C150_masks.
(** A later run finds the mask of a calibration in one directory: the file recorded, if it and the calibration file stay together. *)
Theorem C150_mask_found isfile dir vlim cal n : isfile (mkPath (p_abs dir) (p_comps dir ++ [vlim])) = true ->
  selector_mask isfile (pjoin dir (mkPath false [cal])) (recorded_mask (mode_mask n (pjoin dir (mkPath false [vlim])))) =
  Ok (recorded_mask (mode_mask n (pjoin dir (mkPath false [vlim])))).
Proof.
  intros F. unfold mode_mask, pjoin. cbn [p_abs p_comps].
  assert (E : mkPath (p_abs dir) (removelast (p_comps dir ++ [cal]) ++ match rev (p_comps dir ++ [vlim]) with [] => [] | x :: _ => [x] end) = mkPath (p_abs dir) (p_comps dir ++ [vlim])) by (rewrite removelast_last, rev_unit; reflexivity).
  destruct (there (n_depth n)); [|destruct (there (n_mask n)); [|reflexivity]]; cbn [recorded_mask selector_mask]; unfold dirp, basep, pjoin; cbn [p_abs p_comps]; rewrite E, F; reflexivity.
Qed.
Print Assumptions C150_mask_found.
(** If the output directory is the working directory, the redMaGiC run started at the end reads the configuration just written: that
    of the calibration for the whole sky.  (Missing: other output directories, next theorem.) *)
Theorem C150_handed_over_partial cwd d outpath runfile c : clean cwd -> plain_name runfile -> place cwd outpath = cwd ->
  snd (hand_over cwd d outpath runfile c) = Ok (mkRConf [] 0 None (rc_rest c)).
Proof.
  intros C (n & -> & A & B) P. unfold hand_over. cbn [snd]. rewrite place_join by assumption. rewrite P, place_name by assumption. rewrite put_same. reflexivity.
Qed.
Print Assumptions C150_handed_over_partial.
(** Finding: with any other output directory the run does not read the configuration written for it, but a file of that name in the
    working directory: an old one if there is, else the run fails after the calibration. *)
Theorem C150_handed_over_refuted cwd d outpath runfile c : clean cwd -> plain_name runfile -> place cwd outpath <> cwd ->
  snd (hand_over cwd d outpath runfile c) = match d (place cwd runfile) with Some old => Ok old | None => Err OSError end.
Proof.
  intros C (n & -> & A & B) P. unfold hand_over. cbn [snd]. rewrite place_join by assumption. rewrite place_name by assumption. rewrite put_other; [reflexivity|]. intros E. apply app_inj_tail in E. apply P. tauto.
Qed.
Print Assumptions C150_handed_over_refuted.
(** The configuration is written to the output directory, and no other file is touched. *)
Theorem C150_written cwd d outpath runfile c q : clean cwd -> plain_name runfile ->
  (q = (place cwd outpath ++ p_comps runfile)%list -> fst (hand_over cwd d outpath runfile c) q = Some (mkRConf [] 0 None (rc_rest c))) /\
  (q <> (place cwd outpath ++ p_comps runfile)%list -> fst (hand_over cwd d outpath runfile c) q = d q).
Proof.
  intros C (n & -> & A & B). unfold hand_over. cbn [fst p_comps]. rewrite place_join by assumption. split; [intros ->; apply put_same|]. intros N. apply put_other. congruence.
Qed.
Print Assumptions C150_written.
Example C150_example : let cwd := ["home"; "me"]%string in let run := mkPath false ["run.yaml"%string] in let c := mkRConf [10%Z] 4 (Some 100%Z) 7 in
  clean cwd /\ plain_name run /\ place cwd (mkPath false ["."%string]) = cwd /\ place cwd (mkPath false ["out"%string]) <> cwd /\
  snd (hand_over cwd (fun _ => None) (mkPath false ["."%string]) run c) = Ok (mkRConf [] 0 None 7) /\
  snd (hand_over cwd (fun _ => None) (mkPath false ["out"%string]) run c) = Err OSError.
Proof.
  cbv zeta. split. { split; cbn; intros [H|[H|[]]]; discriminate H. } split. { eexists. split; [reflexivity|]. split; discriminate. } split; [reflexivity|]. split; [discriminate|]. split; reflexivity.
Qed.

(** The check passes exactly if every file asked for exists, and the background file has its two parts if those are asked for. *)
Theorem C151_passes k f : check_files k f = Ok tt <-> all_there k f.
Proof.
  unfold check_files, all_there. rewrite <- need_parts_ok, <- !need_file_ok.
  destruct (need_file (k_zred k) _) as [[]|]; cbn [bind]; [|split; [discriminate|intros (X & _); discriminate X]].
  destruct (need_file (k_bkg k) _) as [[]|]; cbn [bind]; [|split; [discriminate|intros (_ & X & _); discriminate X]].
  destruct (need_parts _ _ _) as [[]|]; cbn [bind]; [|split; [discriminate|intros (_ & _ & X & _); discriminate X]].
  destruct (need_file (k_par k) _) as [[]|]; cbn [bind]; [|split; [discriminate|intros (_ & _ & _ & X & _); discriminate X]].
  destruct (need_file (k_zlambda k) _) as [[]|]; cbn [bind]; [|split; [discriminate|intros (_ & _ & _ & _ & X & _); discriminate X]]. tauto.
Qed.
Print Assumptions C151_passes.
(** The runs ask for these: a run for clusters needs the redshifts, the background with both parts, the parameters and the corrections of
    the redshifts; a run on given clusters needs neither the redshifts of the galaxies nor the parts of the background. *)
Theorem C151_runs f : (check_files run_checks f = Ok tt <-> f_zred f = Named true /\ f_bkg f = Named true /\ In "CHISQBKG"%string (f_exts f) /\ In "ZREDBKG"%string (f_exts f) /\
    f_par f = Named true /\ f_zlambda f = Named true) /\
  (check_files runcat_checks f = Ok tt <-> f_bkg f = Named true /\ f_par f = Named true /\ f_zlambda f = Named true).
Proof.
  rewrite !C151_passes. unfold all_there. cbn [k_zred k_bkg k_parts k_par k_zlambda k_rand run_checks runcat_checks]. intuition discriminate.
Qed.
Print Assumptions C151_runs.
(** If every file asked for is configured, and the parts are only asked for together with the background file, a missing file is
    reported as ValueError.  (Missing: files not configured, and the parts alone.) *)
Theorem C151_reported_partial k f : all_named k f -> (k_parts k = true -> k_bkg k = true) -> check_files k f = Ok tt \/ check_files k f = Err ValueError.
Proof.
  intros (N1 & N2 & N3 & N4 & N5) P. assert (H : forall b x, (b = true -> x <> Unset) -> need_file b x = Ok tt \/ need_file b x = Err ValueError).
  { intros [|] [|[|]] X; cbn; auto. exfalso. apply X; reflexivity. }
  unfold check_files. destruct (H _ _ N1) as [-> | ->]; cbn [bind]; [|auto]. destruct (need_file (k_bkg k) (f_bkg f)) as [[]|e] eqn:EB; cbn [bind].
  - assert (HP : need_parts (k_parts k) (f_bkg f) (f_exts f) = Ok tt \/ need_parts (k_parts k) (f_bkg f) (f_exts f) = Err ValueError).
    { unfold need_parts. destruct (k_parts k) eqn:KP; [|auto]. rewrite need_file_ok in EB. rewrite (EB (P eq_refl)). destruct (existsb _ _); [destruct (existsb _ _)|]; auto. }
    destruct HP as [-> | ->]; cbn [bind]; [|auto]. destruct (H _ _ N3) as [-> | ->]; cbn [bind]; [|auto]. destruct (H _ _ N4) as [-> | ->]; cbn [bind]; [|auto]. apply H, N5.
  - destruct (H _ _ N2) as [X|X]; rewrite X in EB; [discriminate EB|]. right. congruence.
Qed.
Print Assumptions C151_reported_partial.
(** Finding: a file that is not configured at all is not reported as missing: the check fails with TypeError. *)
Theorem C151_unset_refuted k f : (k_zred k = true -> f_zred f = Unset -> check_files k f = Err TypeError) /\
  (forall b p z r e, check_files run_checks (mkFiles (Named true) Unset p z r e) = Err TypeError /\ check_files run_checks (mkFiles Unset b p z r e) = Err TypeError).
Proof. split; [intros K E; unfold check_files; rewrite K, E; reflexivity|]. intros. split; reflexivity. Qed.
Print Assumptions C151_unset_refuted.
(** Finding: asked for the parts of a missing background file alone, the check fails with the library's OSError. *)
Theorem C151_parts_refuted k f : (k_zred k = true -> f_zred f = Named true) -> k_bkg k = false -> k_parts k = true -> f_bkg f = Named false -> check_files k f = Err OSError.
Proof. intros Z B P E. unfold check_files. apply need_file_ok in Z. rewrite Z, B, P, E. reflexivity. Qed.
Print Assumptions C151_parts_refuted.
Example C151_example : let f := mkFiles (Named true) (Named true) (Named true) (Named true) Unset ["CHISQBKG"; "ZREDBKG"]%string in
  all_there run_checks f /\ all_named run_checks f /\ check_files run_checks f = Ok tt /\ check_files runcat_checks f = Ok tt.
Proof.
  cbv zeta. repeat split; cbn; intros; try discriminate; auto.
Qed.
(** A recorded mask is looked for in the directory of the calibration, under its last name only; if it is not there, it is a
    RuntimeError. *)
Theorem C150_mask_missing isfile dir cal rec d0 last : rec = mkPath d0 (last) -> forall parts x, last = parts ++ [x] ->
  selector_mask isfile (pjoin dir (mkPath false [cal])) (Some rec) =
  if isfile (mkPath (p_abs dir) (p_comps dir ++ [x])) then Ok (Some (mkPath (p_abs dir) (p_comps dir ++ [x]))) else Err RuntimeError.
Proof.
  intros -> parts x ->. cbn [selector_mask]. unfold dirp, basep, pjoin. cbn [p_abs p_comps]. rewrite removelast_last, rev_unit. reflexivity.
Qed.
Print Assumptions C150_mask_missing.
