(** C40, C66: configurations. *)
From Coq Require Import ZArith String QArith.
From Verif.Base Require Import Py PyLemmas.
From Verif.Model Require Import Config.
From Verif.Spec Require Import Config.
From Verif.Proofs Require Import Config.
Local Open Scope string_scope.
Local Open Scope nat_scope.

(** An option that is not in the file, not a statistic of the galaxy file, not read from a centering file and not one
    of the four options filled from others has its default, whatever happened in the program before. *)
Theorem C40_defaults : forall E d o s0 s' n, load E d o s0 = (s', Ok tt) ->
  ~ In n (keys d) -> ~ In n filled -> ~ In n from_wcen -> (forall g r st, e_stats E g r = Ok st -> ~ In n (keys st)) ->
  vals s' n = default_of n.
Proof.
  intros E d o s0 s' n H Hd Hf Hw Hs. destruct (load_ok E d o s0 s' (Ok tt) H) as (_ & A). destruct (A eq_refl) as (_ & _ & _ & s1 & E1 & V).
  rewrite V by assumption. replace s1 with (fst (set_vars false (reset s0) d)) by (rewrite E1; reflexivity). rewrite set_vars_vals by exact Hd. reflexivity.
Qed.
Print Assumptions C40_defaults.
(** An option in the file has the value in the file. *)
Theorem C40_given : forall E d o s0 s' n v f, load E d o s0 = (s', Ok tt) -> NoDup (keys d) -> In (n, v) d -> find_field n = Some f ->
  ~ In n filled -> ~ In n from_wcen -> (forall g r st, e_stats E g r = Ok st -> ~ In n (keys st)) ->
  convert (f_kind f) v = Ok (vals s' n).
Proof.
  intros E d o s0 s' n v f H Hnd Hd Hf Hfi Hw Hs. destruct (load_ok E d o s0 s' (Ok tt) H) as (_ & A). destruct (A eq_refl) as (_ & _ & _ & s1 & E1 & V).
  rewrite V by assumption. exact (set_vars_last d (reset s0) s1 n v f E1 Hnd Hd Hf).
Qed.
Print Assumptions C40_given.
(** What loading a file gives does not depend on anything loaded or set before. *)
Theorem C40_history : forall E d o s1 s2, reachable s1 -> reachable s2 ->
  snd (load E d o s1) = snd (load E d o s2) /\ forall n, vals (fst (load E d o s1)) n = vals (fst (load E d o s2)) n.
Proof.
  intros E d o s1 s2 H1 H2. destruct (load_same E d o s1 s2) as [A B].
  - intros n Hn. rewrite (reachable_lens s1 H1 n Hn), (reachable_lens s2 H2 n Hn). reflexivity.
  - split; [exact A|]. intros n. rewrite B. reflexivity.
Qed.
Print Assumptions C40_history.
(** A name that is neither an option nor a method makes loading fail. *)
Theorem C40_unknown_partial : forall E d o s0 n v, In (n, v) d -> known n = false -> existsb (String.eqb n) methods = false ->
  snd (load E d o s0) = Err AttributeError \/ snd (load E d o s0) = Err TypeError.
Proof.
  intros E d o s0 n v Hin Hk Hm. unfold known in Hk. destruct (find_field n) eqn:Ef; [discriminate|].
  pose proof (set_vars_unknown false d (reset s0) n v Hin (or_introl eq_refl) Ef Hm) as H. unfold load.
  destruct (set_vars false (reset s0) d) as [s1 r1]. cbn [snd] in H. destruct H as [->| ->]; [left|right]; reflexivity.
Qed.
Print Assumptions C40_unknown_partial.
(** ... but the name of a method is taken without a word and changes no option. *)
Theorem C40_method_name_refuted : forall E d o s0 n v, In n methods -> known n = false -> load E ((n, v) :: d) o s0 = load E d o s0.
Proof.
  intros E d o s0 n v Hm Hk. unfold known in Hk. destruct (find_field n) eqn:Ef; [discriminate|]. unfold load. cbn [set_vars andb]. unfold set_one. rewrite Ef.
  assert (X : existsb (String.eqb n) methods = true) by (apply existsb_exists; exists n; split; [exact Hm|apply String.eqb_refl]). rewrite X. reflexivity.
Qed.
Print Assumptions C40_method_name_refuted.
Example C40_method_names : Forall (fun n => known n = false) methods.
Proof. unfold methods. repeat constructor. Qed.
(** A loaded configuration has every required option, and its arrays and lists have the expected lengths. *)
Theorem C40_lengths : forall E d o s0 s', reachable s0 -> load E d o s0 = (s', Ok tt) ->
  (forall f, In f options -> f_required f = true -> vals s' (f_name f) <> VNone) /\
  (forall n l, In n ["zrange"; "bkg_local_annuli"; "redmagic_zrange"] -> vals s' n = VSeq l -> List.length l = 2) /\
  (forall n l lz, In n ["calib_colormem_colormodes"; "calib_colormem_sigint"] -> vals s' n = VSeq l -> vals s' "calib_colormem_zbounds" = VSeq lz ->
     List.length l = List.length lz + 1) /\
  (forall n l q, In n ["calib_color_nodesizes"; "calib_slope_nodesizes"; "calib_color_maxnodes"; "calib_covmat_maxnodes"] -> vals s' n = VSeq l ->
     vals s' "nmag" = VAtom (ANum q) -> Z.of_nat (List.length l) = (Qround.Qfloor q - 1)%Z) /\
  (forall n l lr, In n ["redmagic_n0s"; "redmagic_etas"; "redmagic_zmaxes"] -> vals s' n = VSeq l -> vals s' "redmagic_names" = VSeq lr -> List.length l = List.length lr) /\
  (forall n l lv, In n ["vlim_bands"; "vlim_nsigs"] -> vals s' n = VSeq l -> vals s' "vlim_depthfiles" = VSeq lv -> List.length l = List.length lv).
Proof.
  intros E d o s0 s' Hr H. destruct (load_ok E d o s0 s' (Ok tt) H) as (L & A). destruct (A eq_refl) as (V & _ & ([[[a q0] r0] v0] & Z & LL) & _).
  assert (Fix : forall n, ~ In n sized -> lens s' n = lens fresh_store n) by (intros n Hn; rewrite L by exact Hn; apply reachable_lens; assumption).
  unfold sizes in Z. destruct (vlen (vals s' "calib_colormem_zbounds")) as [a'|] eqn:Ea; [|discriminate]. cbn in Z. destruct (num (vals s' "nmag")) as [q'|] eqn:Eq; [|discriminate]. cbn in Z.
  destruct (vlen (vals s' "redmagic_names")) as [r'|] eqn:Er; [|discriminate]. cbn in Z. destruct (vlen (vals s' "vlim_depthfiles")) as [v'|] eqn:Ev; [|discriminate]. cbn in Z.
  injection Z as -> -> -> ->.
  split; [|split; [|split; [|split; [|split]]]].
  - intros f Hf Hq Hn. pose proof (validate_In s' f V Hf) as X. unfold validate_one in X. rewrite Hq, Hn in X. discriminate.
  - intros n l Hn Hl. apply Nat2Z.inj.
    destruct Hn as [<-|[<-|[<-|[]]]]; (refine (validate_len' s' _ _ l V _ _ Hl); [reflexivity|]).
    + rewrite Fix; [reflexivity|]. intros Hi. cbn in Hi. intuition discriminate.
    + rewrite Fix; [reflexivity|]. intros Hi. cbn in Hi. intuition discriminate.
    + rewrite LL. reflexivity.
  - intros n l lz Hn Hl Hz. apply Nat2Z.inj. rewrite Nat2Z.inj_add. rewrite Hz in Ea. injection Ea as <-.
    destruct Hn as [<-|[<-|[]]]; (refine (validate_len' s' _ _ l V _ _ Hl); [reflexivity|]; rewrite LL; reflexivity).
  - intros n l q Hn Hl Hz. rewrite Hz in Eq. injection Eq as <-.
    destruct Hn as [<-|[<-|[<-|[<-|[]]]]]; (refine (validate_len' s' _ _ l V _ _ Hl); [reflexivity|]; rewrite LL; reflexivity).
  - intros n l lz Hn Hl Hz. apply Nat2Z.inj. rewrite Hz in Er. injection Er as <-.
    destruct Hn as [<-|[<-|[<-|[]]]]; (refine (validate_len' s' _ _ l V _ _ Hl); [reflexivity|]; rewrite LL; reflexivity).
  - intros n l lz Hn Hl Hz. apply Nat2Z.inj. rewrite Hz in Ev. injection Ev as <-.
    destruct Hn as [<-|[<-|[]]]; (refine (validate_len' s' _ _ l V _ _ Hl); [reflexivity|]; rewrite LL; reflexivity).
Qed.
Print Assumptions C40_lengths.
(** A loaded configuration is consistent: no mask file together with mask_mode 0, every band of the volume limits is one
    of the bands, and the second radius of the background annulus is larger than the first. *)
Theorem C40_consistent : forall E d o s0 s', load E d o s0 = (s', Ok tt) ->
  (forall q, vals s' "maskfile" <> VNone -> vals s' "mask_mode" = VAtom (ANum q) -> ~ (q == 0)%Q) /\
  (forall l t lb, vals s' "vlim_bands" = VSeq l -> In (AStr t) l -> vals s' "bands" = VSeq lb -> In (AStr t) lb) /\
  (forall l a b, vals s' "bkg_local_annuli" = VSeq l -> nth_error l 0 = Some (ANum a) -> nth_error l 1 = Some (ANum b) -> (a < b)%Q).
Proof.
  intros E d o s0 s' H. destruct (load_ok E d o s0 s' (Ok tt) H) as (_ & A). destruct (A eq_refl) as (_ & F & _). clear A H. unfold final_checks in F.
  destruct (negb (is_none (vals s' "maskfile")) && _)%bool eqn:Em; [discriminate|]. destruct (negb (bands_ok s')) eqn:Eb; [discriminate|]. split; [|split].
  - intros q Hf Hq Hz. rewrite Hq in Em. cbn [num] in Em. rewrite (proj2 (Qeq_bool_iff q 0) Hz) in Em. destruct (vals s' "maskfile"); [congruence|discriminate Em|discriminate Em].
  - intros l t lb Hl Ht Hb. apply Bool.negb_false_iff in Eb. unfold bands_ok in Eb. rewrite Hl in Eb. rewrite forallb_forall in Eb. specialize (Eb _ Ht).
    unfold in_bands in Eb. rewrite Hb in Eb. apply existsb_exists in Eb. destruct Eb as (x & Hx & Ex). destruct x; try discriminate. apply String.eqb_eq in Ex. subst. exact Hx.
  - intros l a b Hl Ha Hb. rewrite Hl in F. unfold num_at in F. rewrite Ha, Hb in F. cbn in F. destruct (Qle_bool b a) eqn:El; [discriminate|].
    apply Qle_bool_false. exact El.
Qed.
Print Assumptions C40_consistent.
(** The default lists of node sizes have one element: with any number of bands but two, a file that does not give
    calib_color_nodesizes cannot be loaded. *)
Theorem C40_default_length_refuted : forall E d o s0 s', reachable s0 -> ~ In "calib_color_nodesizes" (keys d) ->
  (forall g r st, e_stats E g r = Ok st -> ~ In "calib_color_nodesizes" (keys st)) -> load E d o s0 = (s', Ok tt) ->
  forall q, vals s' "nmag" = VAtom (ANum q) -> Qround.Qfloor q = 2%Z.
Proof.
  intros E d o s0 s' Hr Hd Hs H q Hq.
  assert (Hv : vals s' "calib_color_nodesizes" = VSeq [ANum (1 # 20)]).
  { rewrite (C40_defaults E d o s0 s' _ H Hd); [reflexivity| | |exact Hs]; intros Hi; cbn in Hi; intuition discriminate. }
  destruct (C40_lengths E d o s0 s' Hr H) as (_ & _ & _ & X & _). specialize (X "calib_color_nodesizes" _ q (or_introl eq_refl) Hv Hq). cbn [List.length Z.of_nat] in X. change (Z.pos (Pos.of_succ_nat 0)) with 1%Z in X. revert X. generalize (Qround.Qfloor q). intros z X. apply (f_equal (fun y => (y + 1)%Z)) in X. rewrite Z.sub_add in X. symmetry. exact X.
Qed.
Print Assumptions C40_default_length_refuted.
(** A plain option takes any value: a sequence, or a value of another type. *)
Theorem C40_any_value_refuted : forall n f s v, find_field n = Some f -> f_kind f = KScalar -> exists s', set_one s n v = Ok s' /\ vals s' n = v.
Proof. intros n f s v Hf Hk. unfold set_one. rewrite Hf, Hk. cbn. eexists. split; [reflexivity|apply put_same]. Qed.
Print Assumptions C40_any_value_refuted.
(** All configurations share their options: setting one on any of them sets it on every other. *)
Theorem C40_shared_refuted : forall s i j n f v s', find_field n = Some f -> assign s i n v = Ok s' ->
  Ok (read s' j n) = convert (f_kind f) v.
Proof.
  intros s i j n f v s' Hf H. unfold assign in H. rewrite Hf in H. destruct (convert (f_kind f) v) as [w|]; [|discriminate]. cbn in H. injection H as <-.
  unfold read. rewrite put_same. reflexivity.
Qed.
Print Assumptions C40_shared_refuted.
(** ... and loading a second file resets every option of the first configuration. *)
Theorem C40_load_resets_refuted : forall E d o s i n v s1 s', assign s i n v = Ok s1 -> load E d o s1 = (s', Ok tt) ->
  ~ In n (keys d) -> ~ In n filled -> ~ In n from_wcen -> (forall g r st, e_stats E g r = Ok st -> ~ In n (keys st)) ->
  read s' i n = default_of n.
Proof. intros E d o s i n v s1 s' _ H Hd Hf Hw Hs. exact (C40_defaults E d o s1 s' n H Hd Hf Hw Hs). Qed.
Print Assumptions C40_load_resets_refuted.
(** A configuration and its copy share the region settings; configurations loaded separately do not. *)
Theorem C40_copy_region_refuted : forall h c id x, get_d (set_d h (copy_config c id) x) c = x.
Proof. intros h c id x. unfold get_d, set_d. cbn. rewrite Nat.eqb_refl. reflexivity. Qed.
Print Assumptions C40_copy_region_refuted.
Theorem C40_region_separate : forall h c x y, ci_d c < next h -> let '(h', r) := new_d h y in
  get_d (set_d h' (mkInst 0 r) x) c = get_d h c.
Proof.
  intros h c x y H. unfold new_d, get_d, set_d. cbn. destruct (Nat.eqb_spec (ci_d c) (next h)) as [E|N]; [rewrite E in H; exfalso; exact (Nat.lt_irrefl _ H)|reflexivity].
Qed.
Print Assumptions C40_region_separate.

(** C66: each centering option gets the column of the centering file for it; one does not. *)
Theorem C66_wcen_partial : forall w s s' n c f, set_vars false s (wcen_vals w) = (s', Ok tt) -> In (n, c) wcen_columns \/ (w_phi1 w = true /\ In (n, c) phi1_columns) ->
  find_field n = Some f -> n <> "phi1_mmstar_slope" -> vals s' n = w_col w c /\ (w_phi1 w = true /\ In (n, c) phi1_columns -> n = c).
Proof.
  intros w s s' n c f H Hin Hf Hn.
  assert (Hk : f_kind f = KScalar).
  { assert (X : In n from_wcen) by (destruct Hin as [Hin|[_ Hin]]; unfold from_wcen; apply in_map_iff; exists (n, c); (split; [reflexivity|apply in_or_app; tauto])).
    cbn in X. repeat (destruct X as [<-|X]; [injection Hf as <-; reflexivity|]). destruct X. }
  split.
  - assert (Hnd : NoDup (keys (wcen_vals w))) by (unfold wcen_vals, keys; rewrite map_map; destruct (w_phi1 w); apply nodup_str_ok; reflexivity).
    assert (Hin' : In (n, w_col w c) (wcen_vals w)).
    { unfold wcen_vals. apply in_map_iff. exists (n, c). split; [reflexivity|]. apply in_or_app. destruct Hin as [Hin|[-> Hin]]; [left|right]; exact Hin. }
    pose proof (set_vars_last (wcen_vals w) s s' n _ f H Hnd Hin' Hf) as X. rewrite Hk in X. cbn in X. congruence.
  - intros [_ Hp]. cbn in Hp. repeat (destruct Hp as [Hp|Hp]; [congruence|]). destruct Hp.
Qed.
Print Assumptions C66_wcen_partial.
(** Finding: the slope of the central magnitude relation is set to the value of another column. *)
Theorem C66_slope_refuted : forall w s, w_phi1 w = true -> vals (fst (set_vars false s (wcen_vals w))) "phi1_mmstar_slope" = w_col w "phi1_mmstar_m".
Proof. intros w s H. unfold wcen_vals. rewrite H. reflexivity. Qed.
Print Assumptions C66_slope_refuted.

(** A file that loads, with five bands. *)
Definition ex_env : env := mkEnv (fun _ _ => Ok [("galfile_pixelized", VAtom (ABool true)); ("survey_mode", VAtom (ANum 0)); ("area", VAtom (ANum 100)); ("limmag_ref", VAtom (ANum (215 # 10)));
   ("nmag", VAtom (ANum 5)); ("b", VNone); ("zeropoint", VAtom (ANum (225 # 10))); ("ref_ind", VAtom (ANum 3)); ("galfile_nside", VAtom (ANum 32));
   ("bands", VSeq [AStr "u"; AStr "g"; AStr "r"; AStr "i"; AStr "z"]); ("galfile_has_truth", VAtom (ABool false)); ("galfile_has_zspec", VAtom (ABool false))])
   (fun _ => Some (mkWfile (fun c => VAtom (AStr c)) true)).
Definition four (q : Q) : value := VSeq [ANum q; ANum q; ANum q; ANum q].
Definition ex_dict : dict := [("galfile", VAtom (AStr "gal.fit")); ("refmag", VAtom (AStr "i")); ("outbase", VAtom (AStr "test")); ("zrange", VSeq [ANum (5 # 100); ANum (6 # 10)]);
  ("chisq_max", VAtom (ANum 15)); ("calib_color_nodesizes", four (5 # 100)); ("calib_slope_nodesizes", four (1 # 10)); ("calib_color_maxnodes", four (-1)); ("calib_covmat_maxnodes", four (-1))].
Example C40_example : exists s', load ex_env ex_dict None fresh_store = (s', Ok tt) /\ vals s' "chisq_max" = VAtom (ANum 15) /\
  vals s' "max_maskfrac" = VAtom (ANum (1 # 5)) /\ vals s' "limmag_catalog" = VAtom (ANum (215 # 10)) /\
  vals s' "redmagic_zrange" = VSeq [ANum (5 # 100); ANum (6 # 10)] /\ vals s' "lnw_sat_mean" = VAtom (AStr "lnw_sat_mean").
Proof.
  destruct (load ex_env ex_dict None fresh_store) as [s' r] eqn:E. exists s'.
  assert (Hr : r = Ok tt) by (transitivity (snd (load ex_env ex_dict None fresh_store)); [rewrite E; reflexivity|vm_compute; reflexivity]).
  assert (Hs : s' = fst (load ex_env ex_dict None fresh_store)) by (rewrite E; reflexivity).
  split; [rewrite Hr; reflexivity|]. rewrite Hs. vm_compute. repeat split; reflexivity.
Qed.
(** An annulus of the local background whose outer radius is not above the inner one is refused. *)
Theorem C40_annulus s a0 a1 : vals s "bkg_local_annuli" = VSeq [ANum a0; ANum a1] -> (a1 <= a0)%Q -> final_checks s = Err ValueError.
Proof.
  intros V H. unfold final_checks. destruct (negb _ && _)%bool; [reflexivity|]. destruct (negb (bands_ok s)); [reflexivity|]. rewrite V. apply Qle_bool_iff in H. cbn [num_at nth_error bind num]. cbn. rewrite H. reflexivity.
Qed.
Print Assumptions C40_annulus.
Example C40_bad_length : snd (load ex_env (("bkg_local_annuli", VAtom (ANum 2)) :: ex_dict) None fresh_store) = Err ValueError.
Proof. vm_compute. reflexivity. Qed.
(** A redMaGiC redshift range of one number is not understood: an IndexError if it is not negative; a negative number stands for the
    redshift range of the clusters, whatever follows it. *)
Theorem C40_one_bound : forall q, ((0 <= q)%Q -> snd (load ex_env (("redmagic_zrange", VSeq [ANum q]) :: ex_dict) None fresh_store) = Err IndexError) /\
  ((q < 0)%Q -> exists s', load ex_env (("redmagic_zrange", VSeq [ANum q]) :: ex_dict) None fresh_store = (s', Ok tt) /\ vals s' "redmagic_zrange" = VSeq [ANum (5 # 100); ANum (6 # 10)]).
Proof.
  intros q. set (L := load ex_env (("redmagic_zrange", VSeq [ANum q]) :: ex_dict) None fresh_store).
  assert (A : snd L = (if Qlt_bool q 0 then Ok tt else Err IndexError)) by (unfold L; destruct q as [[|n|n] d]; vm_compute; reflexivity).
  assert (B : Qlt_bool q 0 = true -> vals (fst L) "redmagic_zrange" = VSeq [ANum (5 # 100); ANum (6 # 10)]) by (unfold L; destruct q as [[|n|n] d]; vm_compute; (reflexivity || discriminate)).
  clearbody L. destruct L as [s' r]. cbn [fst snd] in *. split; intros H.
  - rewrite A. destruct (Qlt_bool q 0) eqn:E; [apply Qlt_bool_iff in E; apply Qle_not_lt in H; contradiction|reflexivity].
  - apply Qlt_bool_iff in H. exists s'. rewrite H in *. rewrite A. split; [reflexivity|]. apply B. reflexivity.
Qed.
Print Assumptions C40_one_bound.
(** A run in one region of the sky, without the depths of the survey, needs the area: without one the settings are refused, with one they are not. *)
Theorem C40_region_area : forall q h, (0 < q)%Q -> let region := [("nside", VAtom (ANum q)); ("hpix", VSeq [ANum h])] in
  snd (load ex_env ((region ++ ex_dict)%list) None fresh_store) = Err RuntimeError /\ snd (load ex_env (("area", VAtom (ANum 50)) :: (region ++ ex_dict)%list) None fresh_store) = Ok tt /\
  snd (load ex_env (("depthfile", VAtom (AStr "d")) :: (region ++ ex_dict)%list) None fresh_store) = Ok tt.
Proof.
  intros q h H. destruct q as [[|n|n] d]; try (unfold Qlt in H; cbn in H; Lia.lia). destruct h as [h g]. cbv zeta. split; [vm_compute; reflexivity|]. split; vm_compute; reflexivity.
Qed.
Print Assumptions C40_region_area.
