(** C172: the files found by a consolidation. *)
From Coq Require Import Ascii String ZArith Permutation Sorting.Sorted.
From Verif.Base Require Import Py PyLemmas.
From Verif.Model Require Import Names Galfile ConsFiles.
From Verif.Spec Require Import ConsFiles.
From Verif.Proofs Require Import Names RunAll ConsFiles.
From Coq Require Import Lia List. Import ListNotations.
Local Open Scope list_scope.

(** A directory with the catalogues of the tiles of one run, and files of other forms: every tile is found once, with its own pixel and in
    the order of the pixels, and the resolution is that of the run.  (Partial: no resolution and pixel can be read in the path and
    the outbase, the pixels have at most five digits and the resolution does not have five, no file of another run has the form.) *)
Theorem C172_found_partial path base typ n ps other names : ~ reads_as_tile (path ++ s_ "/" ++ base ++ s_ "_") -> (0 <= n)%Z -> ~ (10000 <= n < 100000)%Z ->
  (forall p, In p ps -> (0 <= p < 100000)%Z) -> ps <> [] -> (forall x, In x other -> ~ of_form base typ x) ->
  Permutation names (map (tile_name base typ n) ps ++ other) ->
  exists qs, Permutation ps qs /\ StronglySorted Z.le qs /\ tiles path base typ names = Ok (n, map (fun p => (tile_path path base typ n p, p)) qs).
Proof. apply tiles_ok. Qed.
Print Assumptions C172_found_partial.
(** The order in which the directory lists its files is of no consequence. *)
Theorem C172_order path base typ names names' : Permutation names names' -> tiles path base typ names = tiles path base typ names'.
Proof. intros P. unfold tiles. rewrite (found_perm _ _ _ _ _ P). reflexivity. Qed.
Print Assumptions C172_order.
(** Exactly the files of the form are used, and a pixel is always what is read in the full path of its own file; a file in which nothing
    can be read stops the consolidation with a RuntimeError, and a directory without such files with an IndexError. *)
Theorem C172_used path base typ names : (forall n fs, tiles path base typ names = Ok (n, fs) ->
    Permutation (map fst fs) (map (fun x => path ++ s_ "/" ++ x) (filter (glob (cat_pattern base typ)) names)) /\ (forall x, glob (cat_pattern base typ) x = true <-> of_form base typ x) /\
    forall f p, In (f, p) fs -> exists u a b v, f = u ++ s_ "_" ++ a ++ s_ "_" ++ b ++ s_ "_" ++ v /\ length b = 5 /\ all_digits b /\ p = parse b) /\
  (forall x, In x names -> of_form base typ x -> ~ reads_as_tile (path ++ s_ "/" ++ x) -> tiles path base typ names = Err RuntimeError) /\
  ((forall x, In x names -> ~ of_form base typ x) <-> tiles path base typ names = Err IndexError).
Proof.
  assert (M : forall l fs, mapM pixel_of l = Ok fs -> map fst fs = l /\ forall f p, In (f, p) fs -> exists a b, search_tile f = Some (a, b) /\ p = parse b).
  { induction l as [|f l IH]; cbn [mapM]; intros fs H; [injection H as <-; split; [reflexivity|intros ? ? []]|]. unfold pixel_of at 1 in H. destruct (search_tile f) as [[a b]|] eqn:S; [|discriminate]. cbn [bind] in H.
    destruct (mapM pixel_of l) as [r|] eqn:R; [|discriminate]. cbn [bind] in H. injection H as <-. destruct (IH r eq_refl) as [E F]. split; [cbn; rewrite E; reflexivity|]. intros g p [I|I]; [injection I as <- <-; eauto|apply F, I]. }
  assert (N : forall l f, In f l -> search_tile f = None -> mapM pixel_of l = Err RuntimeError).
  { induction l as [|g l IH]; intros f I S; [destruct I|]. cbn [mapM]. unfold pixel_of at 1. destruct (search_tile g) as [[a b]|] eqn:G; [|reflexivity]. cbn [bind]. destruct I as [->|I]; [congruence|]. rewrite (IH f I S). reflexivity. }
  assert (X : forall x, In x names -> of_form base typ x -> In (path ++ s_ "/" ++ x) (found path base typ names)).
  { intros x I F. unfold found. apply (Permutation_in _ (Permutation_sym (sort_perm_str _))). apply (in_map (fun n => path ++ s_ "/" ++ n)). apply filter_In. split; [exact I|apply glob_form, F]. }
  split; [|split].
  - intros n fs H. unfold tiles in H. destruct (found path base typ names) as [|f t] eqn:E; [discriminate|]. destruct (search_tile f) as [[d e]|]; [|discriminate].
    destruct (mapM pixel_of (f :: t)) as [r|] eqn:R; [|discriminate]. cbn [bind] in H. injection H as _ <-. destruct (M _ _ R) as [E1 E2]. split; [rewrite E1, <- E; unfold found; apply sort_perm_str|]. split; [intros; apply glob_form|].
    intros g p I. destruct (E2 g p I) as (a & b & S & ->). apply search_tile_sound in S as (u & v & S & _ & _ & L & D). exists u, a, b, v. auto.
  - intros x I F R. pose proof (X x I F) as J. unfold tiles. destruct (found path base typ names) as [|f t]; [destruct J|]. destruct (search_tile f) as [[d e]|] eqn:S; [|reflexivity].
    rewrite (N _ _ J) by (apply search_tile_none, R). reflexivity.
  - split.
    + intros H. unfold tiles. assert (E : found path base typ names = []). { unfold found. rewrite filter_none; [reflexivity|]. intros x I. apply Bool.not_true_is_false. rewrite glob_form. apply H, I. } rewrite E. reflexivity.
    + intros H x I F. pose proof (X x I F) as J. unfold tiles in H. destruct (found path base typ names) as [|f t]; [destruct J|]. destruct (search_tile f) as [[d e]|]; [|discriminate].
      assert (K : forall l, mapM pixel_of l <> Err IndexError). { induction l as [|g l IH]; [discriminate|]. cbn [mapM]. unfold pixel_of at 1. destruct (search_tile g) as [[a b]|]; [|discriminate]. cbn [bind]. destruct (mapM pixel_of l); [discriminate|]. cbn. congruence. }
      destruct (mapM pixel_of (f :: t)) eqn:R; [discriminate|]. apply (K (f :: t)). rewrite R. cbn [bind] in H. congruence.
Qed.
Print Assumptions C172_used.
(** Finding: the pixel is looked for in the whole path.  If it can be read in the directory, every tile gets the pixel that is read there,
    and all of the clusters of the other tiles are dropped as outside their pixel. *)
Theorem C172_directory_refuted path : reads_as_tile path -> exists a b, forall base typ names n fs, tiles path base typ names = Ok (n, fs) ->
  n = parse a /\ forall f p, In (f, p) fs -> p = parse b.
Proof.
  intros H. destruct (search_tile path) as [[a b]|] eqn:S; [|apply search_tile_none in S; contradiction]. exists a, b. intros base typ names n fs E.
  assert (A : forall f, In f (found path base typ names) -> search_tile f = Some (a, b)).
  { intros f I. unfold found in I. apply (Permutation_in _ (sort_perm_str _)) in I. apply in_map_iff in I as (x & <- & _). rewrite search_tile_app by congruence. exact S. }
  unfold tiles in E. destruct (found path base typ names) as [|f0 t] eqn:F; [discriminate|]. rewrite (A f0 (or_introl eq_refl)) in E.
  destruct (mapM pixel_of (f0 :: t)) as [r|] eqn:R; [|discriminate]. cbn [bind] in E. injection E as <- <-. split; [reflexivity|]. clear F. revert r R A. generalize (f0 :: t). clear. intros l.
  induction l as [|g l IH]; cbn [mapM]; intros r R A; [injection R as <-; intros ? ? []|]. unfold pixel_of at 1 in R. rewrite (A g (or_introl eq_refl)) in R. cbn [bind] in R. destruct (mapM pixel_of l) as [r'|] eqn:R'; [|discriminate]. cbn [bind] in R. injection R as <-.
  intros f p [I|I]; [injection I as <- <-; reflexivity|]. apply (IH r' eq_refl) with (f := f); [intros; apply A; right; assumption|exact I].
Qed.
Print Assumptions C172_directory_refuted.
(** Finding: the tiles of a run with the outbase y3_test, in the same directory, are taken into the catalogue of the run y3. *)
Theorem C172_other_run_refuted path base extra typ n p : (0 <= p < 100000)%Z -> forall names, In (tile_name (base ++ s_ "_" ++ extra) typ n p) names ->
  forall m fs, tiles path base typ names = Ok (m, fs) -> exists q, In (tile_path path (base ++ s_ "_" ++ extra) typ n p, q) fs.
Proof.
  intros Hp names I m fs E. destruct (C172_used path base typ names) as [U _]. destruct (U m fs E) as (P & G & _).
  assert (J : In (tile_path path (base ++ s_ "_" ++ extra) typ n p) (map fst fs)).
  { apply (Permutation_in _ (Permutation_sym P)). unfold tile_path. apply (in_map (fun x => path ++ s_ "/" ++ x)). apply filter_In. split; [exact I|]. apply G.
    exists (extra ++ s_ "_" ++ fmt 1 n), (fmt 5 p). split; [unfold tile_name; rewrite <- !app_assoc; reflexivity|apply fmt5, Hp]. }
  apply in_map_iff in J as ((f & q) & <- & J). exists q. exact J.
Qed.
Print Assumptions C172_other_run_refuted.
(** Finding: the catalogue of a tile whose pixel has six digits, which there are from a resolution of 128 on, is never found. *)
Theorem C172_large_refuted base typ n p : (100000 <= p)%Z -> ~ of_form base typ (tile_name base typ n p).
Proof.
  intros Hp (w & five & E & L). unfold tile_name in E.
  assert (T : forall a b : str, a ++ s_ "_" ++ typ ++ s_ "_catalog.fit" = b ++ s_ "_" ++ typ ++ s_ "_catalog.fit" -> a = b) by (intros a b; apply app_inv_tail).
  apply app_inv_head in E. apply app_inv_head in E. assert (E2 : fmt 1 n ++ s_ "_" ++ fmt 5 p = w ++ s_ "_" ++ five) by (apply T; rewrite <- !app_assoc; exact E).
  pose proof (fmt5_long p Hp) as Q. assert (D : forallb is_digit (fmt 5 p) = true) by (apply fmt_digits; lia).
  assert (R : rev (fmt 5 p) ++ "_"%char :: rev (fmt 1 n) = rev five ++ "_"%char :: rev w). { apply (f_equal (@rev ascii)) in E2. rewrite !rev_app_distr in E2. cbn in E2. rewrite <- !app_assoc in E2. exact E2. }
  assert (X : nth_error (rev (fmt 5 p) ++ "_"%char :: rev (fmt 1 n)) 5 = Some "_"%char). { rewrite R, nth_error_app2; rewrite rev_length, L; [reflexivity|lia]. }
  rewrite nth_error_app1 in X by (rewrite rev_length; lia). apply nth_error_In in X. apply in_rev in X. rewrite forallb_forall in D. apply D in X. discriminate.
Qed.
Print Assumptions C172_large_refuted.
(** Finding: a tile whose catalogue is missing is left out without any message: the consolidation of the others goes on.  *)
Theorem C172_missing_refuted path base typ n ps p0 p1 : ~ reads_as_tile (path ++ s_ "/" ++ base ++ s_ "_") -> (0 <= n)%Z -> ~ (10000 <= n < 100000)%Z ->
  NoDup (p0 :: p1 :: ps) -> (forall p, In p (p0 :: p1 :: ps) -> (0 <= p < 100000)%Z) ->
  exists fs, tiles path base typ (map (tile_name base typ n) (p1 :: ps)) = Ok (n, fs) /\ (forall p, In p (p1 :: ps) -> In p (map snd fs)) /\ ~ In p0 (map snd fs).
Proof.
  intros H Pn Ln ND Hp. destruct (tiles_ok path base typ n (p1 :: ps) [] (map (tile_name base typ n) (p1 :: ps))) as (qs & PQ & _ & E); try assumption; try discriminate.
  - intros p I. apply Hp. right. exact I.
  - intros x [].
  - rewrite app_nil_r. reflexivity.
  - eexists. split; [exact E|]. assert (S : map snd (map (fun p => (tile_path path base typ n p, p)) qs) = qs) by (rewrite map_map, map_id; reflexivity). rewrite S. split.
    + intros p I. apply (Permutation_in _ PQ), I.
    + intros I. apply (Permutation_in _ (Permutation_sym PQ)) in I. inversion ND as [|? ? N _]; subst. contradiction.
Qed.
Print Assumptions C172_missing_refuted.
(** Finding: the resolution is read from one file only.  With tiles of resolution 16 and 8 in the directory, the pixels of the latter are taken
    for pixels of resolution 16. *)
Theorem C172_mixed_refuted path base typ p q : ~ reads_as_tile (path ++ s_ "/" ++ base ++ s_ "_") -> (0 <= p < 100000)%Z -> (0 <= q < 100000)%Z ->
  tiles path base typ [tile_name base typ 8 p; tile_name base typ 16 q] = Ok (16%Z, [(tile_path path base typ 16 q, q); (tile_path path base typ 8 p, p)]).
Proof.
  intros H Hp Hq. unfold tiles, found. rewrite filter_full. 2: { intros x [<-|[<-|[]]]; apply glob_form, tile_form; assumption. }
  cbn [map sort_str insert_str]. change (path ++ s_ "/" ++ tile_name base typ 8 p) with (tile_path path base typ 8 p). change (path ++ s_ "/" ++ tile_name base typ 16 q) with (tile_path path base typ 16 q).
  assert (L : str_leb (tile_path path base typ 8 p) (tile_path path base typ 16 q) = false). { unfold tile_path, tile_name. rewrite !leb_app. reflexivity. }
  rewrite L. rewrite (tile_search path base typ 16 q H) by lia. cbn [mapM]. unfold pixel_of. rewrite (tile_search path base typ 16 q H), (tile_search path base typ 8 p H) by lia. cbn [bind]. rewrite !fmt_val by lia. reflexivity.
Qed.
Print Assumptions C172_mixed_refuted.
Example C172_example : tiles (s_ "run") (s_ "y3") (s_ "final") [s_ "y3_8_00012_final_catalog.fit"; s_ "y3_8_00012_final_catalog_members.fit"; s_ "y3_8_00003_final_catalog.fit"; s_ "y3_8_00003_firstpass_catalog.fit"] =
    Ok (8%Z, [(s_ "run/y3_8_00003_final_catalog.fit", 3%Z); (s_ "run/y3_8_00012_final_catalog.fit", 12%Z)]) /\
  tiles (s_ "tile_8_00012_v2/run") (s_ "y3") (s_ "final") [s_ "y3_8_00003_final_catalog.fit"] = Ok (8%Z, [(s_ "tile_8_00012_v2/run/y3_8_00003_final_catalog.fit", 12%Z)]) /\
  tile_name (s_ "y3") (s_ "final") 8 12 = s_ "y3_8_00012_final_catalog.fit" /\ tiles (s_ "run") (s_ "y3") (s_ "final") [s_ "y3_x_00012_final_catalog.fit"] = Err RuntimeError.
Proof. repeat split; vm_compute; reflexivity. Qed.
Example C172_case : ~ reads_as_tile (s_ "run" ++ s_ "/" ++ s_ "y3" ++ s_ "_") /\ ~ of_form (s_ "y3") (s_ "final") (s_ "y3_8_00012_final_catalog_members.fit") /\
  reads_as_tile (s_ "tile_8_00012_v2/run") /\ of_form (s_ "y3") (s_ "final") (tile_name (s_ "y3_test") (s_ "final") 8 12).
Proof.
  split; [apply search_tile_none; vm_compute; reflexivity|]. split; [rewrite <- glob_form; vm_compute; discriminate|]. split; [|apply glob_form; vm_compute; reflexivity].
  exists (s_ "tile"), (s_ "8"), (s_ "00012"), (s_ "v2/run"). split; [reflexivity|]. split; [discriminate|]. split; [apply all_digits_b; reflexivity|]. split; [reflexivity|apply all_digits_b; reflexivity].
Qed.
