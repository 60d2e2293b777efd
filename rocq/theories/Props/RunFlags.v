(** C189: what each kind of run does and the files it writes *)
From Coq Require Import QArith Ascii String.
From Verif.Base Require Import Py PyLemmas.
From Verif.Model Require Import Names RunFlags.
From Verif.Spec Require Import RunFlags.
From Verif.Proofs Require Import RunFlags.
From Coq Require Import Lia List. Import ListNotations.
Local Open Scope list_scope.

(** Whatever an earlier run left in the object, a run makes the passes of its kind: the galaxies are shared, the members recorded, the redshift
    corrected and the derivatives taken in exactly the passes that should. *)
Theorem C189_passes c k a : exists l, run_passes c k a = Ok l /\ map d_shares l = sharing k /\ map d_records l = recording k /\
  forall d, In d l -> d_corrects d = finished k /\ d_density d = finished k /\ d_slopes d = finished k.
Proof. exact (run_passes_ok c k a). Qed.
Print Assumptions C189_passes.

(** A second run with the same object does what the first would have done, whichever kinds were run before. *)
Theorem C189_again c c' j k a a1 : after c' j a = Ok a1 -> run_passes c k a1 = run_passes c k a /\ forall lam, keeps c k a1 lam = keeps c k a lam.
Proof. intros _. split; [|intros lam]; destruct k as [| [] | | | | [] |]; reflexivity. Qed.
Print Assumptions C189_again.
Theorem C189_ends c k a : exists a1, after c k a = Ok a1.
Proof. destruct k as [| [] | | | | [] |]; eexists; reflexivity. Qed.
Print Assumptions C189_ends.

(** Members are limited to a multiple of the radius in the percolation run alone, when a multiple larger than 1 is set. *)
Theorem C189_radius c k a : exists b, flag (ready c k a) "use_memradius" = Ok b /\
  (b = true <-> k = Percolation /\ exists x, p_memradius c = Some x /\ (1 < x)%Q).
Proof.
  destruct k as [| [] | | | | [] |]; try (exists false; split; [reflexivity|]; split; [discriminate|intros [E _]; discriminate E]).
  exists (memradius c). split; [reflexivity|]. unfold memradius. destruct (p_memradius c) as [x|].
  - rewrite Qlt_bool_iff. split; [intros H; split; [reflexivity|]; exists x; auto | intros [_ [y [E H]]]; injection E as ->; exact H].
  - split; [discriminate | intros [_ [y [E _]]]; discriminate E].
Qed.
Print Assumptions C189_radius.

(** Finding: the members of no run are limited in luminosity by percolation_memlum: run_percolation.py:206 turns the limit off and nothing turns
    it on, so the branches at cluster_runner.py:529-530 and 547-548 are never taken. *)
Theorem C189_lum_refuted c k a : flag (ready c k a) "use_memlum" = Ok false.
Proof. destruct k as [| [] | | | | [] |]; reflexivity. Qed.
Print Assumptions C189_lum_refuted.

(** Only a run on input clusters looks for the galaxy at each center; only the redshift scan matches galaxies of any magnitude and masks within its own
    radius; every run reads its galaxies, except that over random points if there is a depth file. *)
Theorem C189_matching c k a df : exists b m g r, let a1 := ready c k (construct df k a) in
  flag a1 "match_centers_to_galaxies" = Ok b /\ (b = true <-> exists masking, k = Runcat masking) /\
  flag a1 "use_maxmag_in_matching" = Ok m /\ (m = false <-> k = Zscan) /\
  flag a1 "read_gals" = Ok g /\ (g = false <-> k = RandomsZmask /\ df = true) /\
  flag a1 "use_rmask_settings" = Ok r /\ (r = false <-> k = Zscan).
Proof.
  destruct k as [|sp| | | |mk|], df; do 4 eexists; cbn zeta; (split; [reflexivity|]); (split; [split; [try discriminate; intros _; eexists; reflexivity|intros [x E]; try discriminate E; reflexivity]|]);
    (split; [reflexivity|]); (split; [split; [try discriminate; intros _; reflexivity|intros E; try discriminate E; reflexivity]|]);
    (split; [reflexivity|]); (split; [split; [intros E; first [discriminate E|split; reflexivity]|intros [E F]; first [discriminate E|discriminate F|reflexivity]]|]);
    (split; [reflexivity|split; intros E; first [discriminate E|reflexivity]]).
Qed.
Print Assumptions C189_matching.

(** The clusters kept are those at or above the least richness of the kind of run; where there is none, all with at least -1 are. *)
Theorem C189_kept c k a lam : plain k -> exists b, keeps c k a lam = Ok b /\ (b = true <-> match least c k with Some m => m <= lam | None => - 1 <= lam end)%Q.
Proof. intros _. destruct k as [| [] | | | | [] |]; (eexists; split; [reflexivity|]); cbn [least]; rewrite Qle_bool_iff; reflexivity. Qed.
Print Assumptions C189_kept.
(** Finding: clusters that failed (richness -1) stay in the catalogue of a run on input clusters and of the random points, and in that of every other
    run whose least richness is -1 or less. *)
Theorem C189_failed_refuted c k a : plain k -> (keeps c k a (- 1) = Ok true <-> match least c k with Some m => m <= - 1 | None => True end)%Q.
Proof.
  intros P. destruct (C189_kept c k a (- 1) P) as [b [E H]]. rewrite E. split.
  - intros I. injection I as ->. destruct (least c k); [apply H; reflexivity | exact I].
  - intros I. f_equal. apply H. destruct (least c k); [exact I | apply Qle_refl].
Qed.
Print Assumptions C189_failed_refuted.

(** In one place, the catalogues and the members of different kinds of run are different files. *)
Theorem C189_names p v b j k x y : In x ["_catalog"; "_catalog_members"]%string -> In y ["_catalog"; "_catalog_members"]%string ->
  redmapper_filename p (filetype j ++ x)%string v b = redmapper_filename p (filetype k ++ y)%string v b -> same_kind j k /\ x = y.
Proof. intros X Y H. exact (types_differ j k x y X Y (name_inj _ _ _ _ _ H)). Qed.
Print Assumptions C189_names.

(** [output] writes the catalogue, the members if they are asked for and there are any, and touches no other file; without a catalogue it
    writes nothing. *)
Theorem C189_output p k d cat mem sv v cl b d' n : output p k d cat mem sv v cl b = (d', n) ->
  let m := redmapper_filename p (filetype k ++ "_catalog_members")%string v b in let put old t := if cl then [t] else old ++ [t] in
  n = redmapper_filename p (filetype k ++ "_catalog")%string v b /\
  d' n = match cat with Some t => put (d n) t | None => d n end /\
  d' m = match cat, sv, mem with Some _, true, Some t => put (d m) t | _, _, _ => d m end /\
  forall f, f <> n -> f <> m -> d' f = d f.
Proof.
  intros H. assert (N : redmapper_filename p (filetype k ++ "_catalog")%string v b <> redmapper_filename p (filetype k ++ "_catalog_members")%string v b)
    by (intros E; exact (type_pair k (name_inj _ _ _ _ _ E))).
  cbv zeta. unfold output in H. destruct cat as [t|].
  - destruct sv, mem as [m0|]; injection H as <- <-;
      (split; [reflexivity|]); rewrite ?write_same, ?(write_other _ _ _ _ _ N), ?(write_other _ _ _ _ _ (not_eq_sym N)), ?write_same;
      (split; [reflexivity|]); (split; [reflexivity|]); intros f A B; rewrite ?write_other by assumption; reflexivity.
  - injection H as <- <-. repeat split; reflexivity.
Qed.
Print Assumptions C189_output.

(** Finding: [output] does not clobber unless told to, and then a second catalogue goes behind the first: who reads the file still gets the first. *)
Theorem C189_stale_refuted p k d t mem sv v b d' n old rest : output p k d (Some t) mem sv v false b = (d', n) -> d n = old :: rest -> hd_error (d' n) = Some old.
Proof. intros H E. destruct (C189_output _ _ _ _ _ _ _ _ _ _ _ H) as (_ & A & _). rewrite A, E. reflexivity. Qed.
Print Assumptions C189_stale_refuted.
(** With clobber, who reads the file gets the new catalogue. *)
Theorem C189_fresh_partial p k d t mem sv v b d' n : output p k d (Some t) mem sv v true b = (d', n) -> d' n = [t].
Proof. intros H. destruct (C189_output _ _ _ _ _ _ _ _ _ _ _ H) as (_ & A & _). exact A. Qed.
Print Assumptions C189_fresh_partial.

(** Once the output is written, [filename] is where it is; before that it is where it will be if no version and no base name are asked for. *)
Theorem C189_filename_partial p k d cat mem sv v cl b d' n : output p k d cat mem sv v cl b = (d', n) -> filename p k (Some n) = n /\
  (v = false -> (b = None \/ b = Some (o_base p)) -> filename p k None = n).
Proof.
  intros H. destruct (C189_output _ _ _ _ _ _ _ _ _ _ _ H) as (A & _). split; [reflexivity|]. intros -> B. rewrite A. destruct B as [-> | ->]; reflexivity.
Qed.
Print Assumptions C189_filename_partial.
(** Finding: by default the version is part of the name, so [filename], asked before the output (to see if there is something to do), never names the
    file the output goes to. *)
Theorem C189_filename_refuted p k d cat mem sv cl d' n : output p k d cat mem sv true cl None = (d', n) -> filename p k None <> n.
Proof.
  intros H. destruct (C189_output _ _ _ _ _ _ _ _ _ _ _ H) as (A & _). rewrite A. intros E. exact (version_longer _ _ (eq_sym E)).
Qed.
Print Assumptions C189_filename_refuted.

Definition C189_conf : conf := mkCfg 3 5 (- 1) (Some (3 # 2)%Q).
Example C189_ex :
  run_passes C189_conf Colormem (fun _ => None) = Ok [mkDoing false false false false false; mkDoing true true false false false] /\
  run_passes C189_conf Percolation (fun _ => None) = Ok [mkDoing true true true true true] /\
  keeps C189_conf Percolation (fun _ => None) 4 = Ok false /\ keeps C189_conf (Runcat false) (fun _ => None) (- 1) = Ok true /\
  keeps C189_conf Zscan (fun _ => None) (- 1) = Ok true /\
  string_of_list_ascii (redmapper_filename (mkPlace (s_ "out") (s_ "run_2_00012") (s_ "0.8")) "final_catalog" false None) = "out/run_2_00012_final_catalog.fit"%string.
Proof. repeat split; reflexivity. Qed.
