(** C56, C57, C62 and C74: names of files. *)
From Coq Require Import Ascii String Sorting.Sorted Permutation.
From Verif.Base Require Import Py PyLemmas Sort.
From Verif.Model Require Import Chunks Names.
From Verif.Spec Require Import Names.
From Verif.Proofs Require Import Chunks Randoms Names.
From Coq Require Import Lia ZArith List.
Import ListNotations.
Local Open Scope nat_scope.
Local Open Scope list_scope.

(** *** C56: the member file of a catalog *)
(** The name read for base.fit is base_members.fit exactly when base does not end in one of the
    characters of ".fit": the extension is stripped as a set of characters. *)
Theorem C56_member_file_partial base :
  members_file (base ++ s_ ".fit") = base ++ s_ "_members.fit" <->
  (forall b c, base = b ++ [c] -> ~ In c (s_ ".fit")).
Proof. exact (members_iff base). Qed.
Print Assumptions C56_member_file_partial.
Example C56_ex : members_file (s_ "dr8_run_lgt20_catalog.fit") = s_ "dr8_run_lgt20_catalog_members.fit".
Proof. reflexivity. Qed.

(** Every catalog whose base name ends in 'f', 'i', 't' or '.' has another file read. *)
Theorem C56_member_file_refuted b c :
  In c (s_ ".fit") -> members_file (b ++ [c] ++ s_ ".fit") <> b ++ [c] ++ s_ "_members.fit".
Proof.
  intros Hc H. rewrite !app_assoc in H. exact (proj1 (members_iff (b ++ [c])) H b c eq_refl Hc).
Qed.
Print Assumptions C56_member_file_refuted.
Example C56_refuted_ex : members_file (s_ "cat_v1_fit.fit") = s_ "cat_v1__members.fit" /\ members_file (s_ "first.fit") = s_ "firs_members.fit".
Proof. split; reflexivity. Qed.

(** *** C62: the recount of the pixel files *)
(** If the output path and base hold no text like _1234567, and the files matching the pattern are the
    pixel files written, then whatever the order of the files every pixel is counted with the rows of its
    own file and all others with none. *)
Theorem C62_recount_partial npix outpath outbase pixels rows files :
  ~ has_pixel_text (outpath ++ s_ "/" ++ outbase) ->
  (forall p, In p pixels -> (0 <= p < 10 ^ 7)%Z /\ (Z.to_nat p < npix)%nat) ->
  filter (fun fr => glob7 outpath outbase (fst fr)) files = pixel_files outpath outbase pixels rows ->
  exists c, recount npix outpath outbase files = Ok c /\ length c = npix /\
    forall p, (0 <= p)%Z -> nth (Z.to_nat p) c 0 = if existsb (Z.eqb p) pixels then rows p else 0.
Proof. exact (recount_ok npix outpath outbase pixels rows files). Qed.
Print Assumptions C62_recount_partial.
(** ... and the pixel files are among those the pattern matches *)
Theorem C62_globbed_partial outpath outbase p :
  (0 <= p < 10 ^ 7)%Z -> glob7 outpath outbase (pixel_file outpath outbase p) = true.
Proof. exact (glob7_file outpath outbase p). Qed.
Print Assumptions C62_globbed_partial.
Example C62_ex : recount 12 (s_ "/data/zreds") (s_ "dr8")
  ((s_ "/data/zreds/dr8_master_table.fit", 1) :: pixel_files (s_ "/data/zreds") (s_ "dr8") [3; 11]%Z (fun p => Z.to_nat p)) =
  Ok [0; 0; 0; 3; 0; 0; 0; 0; 0; 0; 0; 11] /\ ~ has_pixel_text (s_ "/data/zreds/dr8").
Proof.
  split; [vm_compute; reflexivity|]. intros H. apply search7_has in H. apply H. reflexivity.
Qed.
(** the file names are not ambiguous: two pixels have different files *)
Theorem C62_distinct outpath outbase p q :
  (0 <= p < 10 ^ 7)%Z -> (0 <= q < 10 ^ 7)%Z -> pixel_file outpath outbase p = pixel_file outpath outbase q -> p = q.
Proof.
  intros Hp Hq H. unfold pixel_file in H. do 4 apply app_inv_head in H. apply app_inv_tail in H.
  rewrite !fmt7 in H by assumption. apply (f_equal parse) in H. rewrite !parse_digits, !Z.mod_small in H by (assumption || lia). exact H.
Qed.
Print Assumptions C62_distinct.

(** If the directory or the base name holds such a text, every file is counted for that one pixel: all
    other pixels are recorded as empty. *)
Theorem C62_path_refuted npix outpath outbase pixels rows a d b :
  outpath ++ s_ "/" ++ outbase = a ++ s_ "_" ++ d ++ b -> ~ has_pixel_text a ->
  length d = 7 -> forallb is_digit d = true -> Z.to_nat (numeral d) < npix ->
  (forall p, In p pixels -> (0 <= p < 10 ^ 7)%Z) ->
  exists c, recount npix outpath outbase (pixel_files outpath outbase pixels rows) = Ok c /\
    forall k, k <> Z.to_nat (numeral d) -> nth k c 0 = 0.
Proof.
  intros E Ha L F Hn Hp. apply recount_wrong; [|exact Hn|exact Hp]. rewrite E.
  change (s_ "_" ++ d ++ b) with ("_"%char :: (d ++ b)). rewrite search7_under.
  destruct (search7 a) eqn:S; [exfalso; apply Ha, search7_has; congruence|].
  change (search7 ("_"%char :: d ++ b)) with (match take_digits 7 (d ++ b) with Some r => Some r | None => search7 (d ++ b) end).
  now rewrite (take_digits_app 7 d b L F).
Qed.
Print Assumptions C62_path_refuted.
Example C62_path_refuted_ex :
  recount 12 (s_ "/data/run_00000051") (s_ "dr8") (pixel_files (s_ "/data/run_00000051") (s_ "dr8") [3; 11]%Z (fun p => Z.to_nat p))
  = Ok [0; 0; 0; 0; 0; 11; 0; 0; 0; 0; 0; 0].
Proof. vm_compute. reflexivity. Qed.
(** From pixel 10,000,000 on (which nside 1024 has) the file is not found at all. *)
Theorem C62_large_refuted outpath outbase p :
  (10 ^ 7 <= p)%Z -> glob7 outpath outbase (pixel_file outpath outbase p) = false.
Proof. exact (glob7_long outpath outbase p). Qed.
Print Assumptions C62_large_refuted.
(** A file that matches the pattern but holds no pixel number stops the finalisation. *)
Theorem C62_other_file_refuted :
  exists npix outpath outbase, glob7 outpath outbase (outpath ++ s_ "/" ++ outbase ++ s_ "_members.fit") = true /\
    recount npix outpath outbase [(outpath ++ s_ "/" ++ outbase ++ s_ "_members.fit", 5)] = Err RuntimeError.
Proof. exists 12, (s_ "/data"), (s_ "dr8"). split; reflexivity. Qed.
Print Assumptions C62_other_file_refuted.

(** *** C57: batch jobs *)
(** the run modes are 0 to 4, each with job names of its own *)
Theorem C57_runmodes : (forall m, (exists t, jobtype m = Ok t) <-> (0 <= m <= 4)%Z) /\
  (forall m m' t, jobtype m = Ok t -> jobtype m' = Ok t -> m = m').
Proof.
  assert (K : forall m t, jobtype m = Ok t -> (0 <= m <= 4)%Z).
  { intros m t. unfold jobtype. destruct (Z.eqb_spec m 0), (Z.eqb_spec m 1), (Z.eqb_spec m 2), (Z.eqb_spec m 3), (Z.eqb_spec m 4); intros; try lia; discriminate. }
  assert (D : forall m, (0 <= m <= 4)%Z -> m = 0%Z \/ m = 1%Z \/ m = 2%Z \/ m = 3%Z \/ m = 4%Z) by (intros; lia).
  split.
  - intros m. split; [intros [t H]; apply (K m t H)|]. intros H. destruct (D m H) as [-> | [-> | [-> | [-> | ->]]]]; eexists; reflexivity.
  - intros m m' t H H'. destruct (D m (K m t H)) as [-> | [-> | [-> | [-> | ->]]]]; destruct (D m' (K m' t H')) as [-> | [-> | [-> | [-> | ->]]]]; try reflexivity; vm_compute in H, H'; congruence.
Qed.
Print Assumptions C57_runmodes.
(** In a directory where only this program writes, submission n+1 takes a new name exactly for n < 10. *)
Theorem C57_new_name_partial n : ~ In (job_index (submissions n)) (submissions n) <-> n < 10.
Proof. rewrite submissions_in. lia. Qed.
Print Assumptions C57_new_name_partial.
(** From the eleventh submission on, the same job file is overwritten. *)
Theorem C57_new_name_refuted n : 10 <= n -> job_index (submissions n) = s_ "10" /\ In (s_ "10") (submissions n).
Proof. intros H. rewrite (submissions_fix n H). split; [reflexivity|]. vm_compute. intuition. Qed.
Print Assumptions C57_new_name_refuted.
(** A removed earlier job makes the next submission overwrite a later one. *)
Theorem C57_gap_refuted : exists jobs, In (job_index jobs) jobs /\ length jobs < 9.
Proof. exists [s_ "2"]. split; [vm_compute; intuition|cbn; lia]. Qed.
Print Assumptions C57_gap_refuted.

(** An LSF array gives every pixel of the run to exactly one job; so does the parsl list. *)
Theorem C57_each_once {P} (centre : Z -> P) (at_pix : P -> Z) hpix b :
  b = LSF \/ b = ParslLocal \/ b = ParslSlurm ->
  exists l, job_pixels b (run_pixels centre at_pix hpix) = Ok l /\ NoDup l /\
    forall q, In q l <-> exists p, In p hpix /\ q = at_pix (centre p).
Proof.
  intros H. exists (run_pixels centre at_pix hpix).
  split; [destruct H as [->|[->| ->]]; [apply lsf_pixels|reflexivity|reflexivity]|].
  split; [apply uniqueZ_NoDup|]. intros q. unfold run_pixels. rewrite uniqueZ_In, in_map_iff.
  split; intros (p & H1 & H2); exists p; auto.
Qed.
Print Assumptions C57_each_once.
(** If the pixels of the run are unions of pixels of the catalog, every galaxy is in the pixel of a job. *)
Theorem C57_covers_partial {P} (centre : Z -> P) (cat_pix at_pix : P -> Z) hpix :
  (forall x, at_pix (centre (cat_pix x)) = at_pix x) ->
  forall galaxy, In (cat_pix galaxy) hpix -> In (at_pix galaxy) (run_pixels centre at_pix hpix).
Proof.
  intros H g Hg. unfold run_pixels. apply uniqueZ_In, in_map_iff. exists (cat_pix g). auto.
Qed.
Print Assumptions C57_covers_partial.
Example C57_covers_ex : (forall x, (((x / 4) * 4 + 2) / 8 = x / 8)%Z) /\ run_pixels (fun p => p * 4 + 2)%Z (fun x => x / 8)%Z [0; 1; 2; 7]%Z = [0; 1; 3]%Z.
Proof.
  split; [|reflexivity]. intros x. symmetry. apply Z.div_unique with (r := ((x / 4) * 4 + 2 - 8 * (x / 8))%Z); [left|lia].
  pose proof (Z.div_mod x 4 ltac:(lia)). pose proof (Z.div_mod x 8 ltac:(lia)).
  pose proof (Z.mod_pos_bound x 4 ltac:(lia)). pose proof (Z.mod_pos_bound x 8 ltac:(lia)). lia.
Qed.
(** With run pixels finer than the catalog's, some galaxies belong to no job. *)
Theorem C57_covers_refuted :
  exists (centre : Z -> Z) (cat_pix at_pix : Z -> Z) hpix galaxy,
    (forall p, cat_pix (centre p) = p) /\ In (cat_pix galaxy) hpix /\ ~ In (at_pix galaxy) (run_pixels centre at_pix hpix).
Proof.
  exists (fun p => p * 4 + 2)%Z, (fun x => x / 4)%Z, (fun x => x / 2)%Z, [0]%Z, 0%Z. repeat split.
  - intros p. rewrite Z.div_add_l by lia. change (2 / 4)%Z with 0%Z. lia.
  - left. reflexivity.
  - vm_compute. intuition discriminate.
Qed.
Print Assumptions C57_covers_refuted.
(** On PBS no job is written, for any catalog. *)
Theorem C57_pbs_refuted pixels : job_pixels PBS pixels = Err NameError.
Proof. reflexivity. Qed.
Print Assumptions C57_pbs_refuted.

(** *** C74: the run does not touch the calibration *)
Theorem C74_run_directory cal : run_dir cal <> cal.
Proof. exact (run_dir_other cal). Qed.
Print Assumptions C74_run_directory.
Theorem C74_run_outbase cal : run_outbase cal <> cal.
Proof. exact (run_outbase_other cal). Qed.
Print Assumptions C74_run_outbase.
Theorem C74_redmagic_configuration cfg : redmagic_runfile cfg <> cfg.
Proof. exact (redmagic_other cfg). Qed.
Print Assumptions C74_redmagic_configuration.
Example C74_ex : run_dir (s_ "dr8_cal") = s_ "dr8_run" /\ run_dir (s_ "cal_dr8") = s_ "run_dr8" /\ run_dir (s_ "dr8") = s_ "dr8_run" /\
  redmagic_runfile (s_ "redmagic_cal.yml") = s_ "redmagic_run.yml" /\ redmagic_runfile (s_ "redmagic.yml") = s_ "redmagic_run.yaml".
Proof. vm_compute. auto. Qed.
(** The run configuration stands in the directory of the calibration's, if the name of that directory
    contains neither "cal" nor ".y". *)
Theorem C74_same_directory_partial d b :
  ~ occurs (s_ "cal") d -> ~ occurs (s_ ".y") d ->
  redmagic_runfile (d ++ s_ "/" ++ b) = d ++ s_ "/" ++ redmagic_runfile b.
Proof. exact (redmagic_same_dir d b). Qed.
Print Assumptions C74_same_directory_partial.
(** Otherwise it goes to a directory of another name. *)
Theorem C74_same_directory_refuted :
  redmagic_runfile (s_ "/home/local/redmagic.yml") = s_ "/home/lorun/redmagic.yml" /\
  redmagic_runfile (s_ "/home/des.y3/redmagic.yml") = s_ "/home/des_run.yaml".
Proof. vm_compute. auto. Qed.
Print Assumptions C74_same_directory_refuted.
(** Calibrations in two different directories can share their run directory. *)
Theorem C74_shared_refuted x :
  ~ occurs (s_ "cal_") x -> ~ occurs (s_ "_cal") x -> x <> s_ "cal" -> ~ occurs (s_ "cal_") (x ++ s_ "_cal") ->
  ~ occurs (s_ "_cal") (x ++ s_ "_ca") ->
  run_dir x = run_dir (x ++ s_ "_cal") /\ x <> x ++ s_ "_cal".
Proof.
  intros H1 H2 H3 H4 H5. split.
  2: { intros H. apply (f_equal (@length _)) in H. rewrite app_length in H. cbn in H. lia. }
  assert (N : forall p s, ~ occurs p s -> contains p s = false) by (intros p s H; destruct (contains p s) eqn:E; [exfalso; apply H, contains_iff, E|reflexivity]).
  unfold run_dir. rewrite (N _ _ H1), (N _ _ H2), (N _ _ H4).
  destruct (str_eqb x (s_ "cal")) eqn:E0; [apply str_eqb_iff in E0; contradiction|].
  destruct (str_eqb (x ++ s_ "_cal") (s_ "cal")) eqn:E1.
  { apply str_eqb_iff in E1. apply (f_equal (@length _)) in E1. rewrite app_length in E1. cbn in E1. lia. }
  assert (E2 : contains (s_ "_cal") (x ++ s_ "_cal") = true) by (apply contains_iff; exists x, []; now rewrite app_nil_r).
  rewrite E2. clear - H5. unfold replace_all. induction x as [|c x IH]; [reflexivity|].
  cbn [app replace_from].
  assert (E : prefix_of (s_ "_cal") (c :: x ++ s_ "_cal") = None).
  { destruct (prefix_of (s_ "_cal") (c :: x ++ s_ "_cal")) as [r|] eqn:E; [|reflexivity]. exfalso. apply H5.
    apply prefix_some in E. exists [], (removelast r). cbn [app] in E |- *.
    assert (R : r <> []). { intros ->. apply (f_equal (@length _)) in E. cbn in E. rewrite app_length in E. cbn in E. lia. }
    assert (E' : removelast (c :: x ++ s_ "_cal") = removelast (s_ "_cal" ++ r)) by (rewrite E; reflexivity).
    rewrite removelast_app in E' by exact R. rewrite <- E'.
    change (c :: x ++ s_ "_cal") with ((c :: x) ++ s_ "_ca" ++ ["l"%char]). rewrite app_assoc, removelast_last. reflexivity. }
  rewrite E. f_equal. apply IH. intros (a & b & Ho). apply H5. exists (c :: a), b. cbn. f_equal. exact Ho.
Qed.
Print Assumptions C74_shared_refuted.
Example C74_shared_ex : run_dir (s_ "dr8") = s_ "dr8_run" /\ run_dir (s_ "dr8_cal") = s_ "dr8_run".
Proof. vm_compute. auto. Qed.
(** A pixel number beyond the table is an IndexError. *)
Theorem C62_beyond npix outpath outbase pixels rows p files : ~ has_pixel_text (outpath ++ s_ "/" ++ outbase) ->
  (forall q, In q pixels -> (0 <= q < 10 ^ 7)%Z /\ (Z.to_nat q < npix)%nat) -> (0 <= p < 10 ^ 7)%Z -> npix <= Z.to_nat p ->
  filter (fun fr => glob7 outpath outbase (fst fr)) files = pixel_files outpath outbase (pixels ++ [p]) rows ->
  recount npix outpath outbase files = Err IndexError.
Proof.
  intros N H P L F. assert (S : search7 (outpath ++ s_ "/" ++ outbase) = None).
  { destruct (search7 (outpath ++ s_ "/" ++ outbase)) eqn:E; [|reflexivity]. exfalso. apply N. apply search7_has. congruence. }
  destruct (recount_fold npix outpath outbase rows pixels S H (repeat 0 npix) (repeat_length _ _)) as (c & E & _ & _).
  unfold recount. rewrite F. unfold pixel_files in *. rewrite map_app, fold_left_app. etransitivity; [apply f_equal; exact E|]. cbn [fold_left map bind fst snd]. unfold set_count.
  rewrite search7_file, S, parse_digits by lia. rewrite Z.mod_small by exact P. destruct (Nat.ltb_spec (Z.to_nat p) npix); [lia|reflexivity].
Qed.
Print Assumptions C62_beyond.
