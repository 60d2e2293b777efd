(** C157, C158: the files and the sources of the random points. *)
From Coq Require Import Ascii String QArith Qround.
From Verif.Base Require Import Py PyLemmas.
From Verif.Model Require Import RandMaker.
From Verif.Spec Require Import RandMaker.
From Verif.Proofs Require Import RandMaker.
From Coq Require Import Lia List. Import ListNotations.
Local Open Scope string_scope.

(** The generation starts exactly if the configured name looks like a master table in some directory and no such table exists; the file
    is then the master table with the same base.  Otherwise it is a RuntimeError. *)
Theorem C157_start fs rf : (forall f, gen_file fs rf = Ok f <-> exists name base c, rf = Some name /\ looks_like name base c /\ in_directory base /\
    f = base ++ "_master_table.fit" /\ fs f = false) /\ ((forall f, gen_file fs rf <> Ok f) -> gen_file fs rf = Err RuntimeError).
Proof.
  unfold gen_file. destruct rf as [name|].
  2: { split; [|reflexivity]. intros f. split; [discriminate|]. intros (n & b & c & E & _). discriminate. }
  assert (K : forall base, fst (rand_maker fs base []) = if has_slash base then if fs (master base) then Err RuntimeError else Ok (mkMaker base (master base) rand_defaults false) else Err RuntimeError).
  { intros base. unfold rand_maker, gal_maker. rewrite slash_master. cbn -[has_slash master]. destruct (has_slash base); reflexivity. }
  destruct (re_master name) as [base|] eqn:R.
  - rewrite K. apply re_ok in R. destruct R as [c R]. split.
    + intros f. split.
      * destruct (has_slash base) eqn:Sl; [|discriminate]. destruct (fs (master base)) eqn:F; [discriminate|]. cbn. intros E. injection E as <-.
        exists name, base, c. repeat split; try assumption. apply slash_ok, Sl.
      * intros (n & b & c' & E & L & D & -> & F). injection E as <-. assert (b = base) as ->.
        { assert (X : re_master name = Some base) by (apply re_ok; eauto). assert (Y : re_master name = Some b) by (apply re_ok; eauto). congruence. }
        apply slash_ok in D. rewrite D. unfold master. rewrite F. reflexivity.
    + destruct (has_slash base); [|reflexivity]. destruct (fs (master base)); [reflexivity|]. cbn. intros H. destruct (H _ eq_refl).
  - split; [|reflexivity]. intros f. split; [discriminate|]. intros (n & b & c & E & L & _). injection E as <-. assert (re_master name = Some b) by (apply re_ok; eauto). congruence.
Qed.
Print Assumptions C157_start.
(** A name which really ends in "_master_table.fit" is the name of the file written.  (Partial: for any other character in the place of
    the dot the file is another one, C157_name_refuted.) *)
Theorem C157_name_partial fs base f : gen_file fs (Some (base ++ "_master_table.fit")) = Ok f -> f = base ++ "_master_table.fit".
Proof.
  intros E. apply (proj1 (C157_start fs _)) in E. destruct E as (n & b & c & E & L & D & -> & F). injection E as <-.
  assert (X : re_master (base ++ "_master_table.fit") = Some b) by (apply re_ok; eauto).
  assert (Y : re_master (base ++ "_master_table.fit") = Some base) by (apply re_ok; exists "."%char; reflexivity). congruence.
Qed.
Print Assumptions C157_name_partial.
(** Finding: the dot of the pattern is not escaped, so that "…_master_tableXfit" is accepted, and the random points are written to
    another file than the configured one, which never appears. *)
Theorem C157_name_refuted fs base c : c <> "."%char -> in_directory base -> fs (base ++ "_master_table.fit") = false ->
  exists f, gen_file fs (Some (base ++ "_master_table" ++ String c "fit")) = Ok f /\ f <> base ++ "_master_table" ++ String c "fit".
Proof.
  intros N D F. exists (base ++ "_master_table.fit"). split.
  - apply (proj1 (C157_start fs _)). exists (base ++ "_master_table" ++ String c "fit"), base, c. repeat split; try assumption.
  - intros E. apply app_inj in E. cbn in E. injection E as E. congruence.
Qed.
Print Assumptions C157_name_refuted.
(** Finding: a name without a directory passes the constructor, and is refused only when the generation begins. *)
Theorem C157_bare_refuted fs base : ~ in_directory base -> gen_file fs (Some (base ++ "_master_table.fit")) = Err RuntimeError.
Proof.
  intros N. apply (proj2 (C157_start fs _)). intros f E. apply (proj1 (C157_start fs _)) in E. destruct E as (n & b & c & E & L & D & -> & F). injection E as <-.
  assert (X : re_master (base ++ "_master_table.fit") = Some b) by (apply re_ok; eauto).
  assert (Y : re_master (base ++ "_master_table.fit") = Some base) by (apply re_ok; exists "."%char; reflexivity). assert (b = base) as -> by congruence. contradiction.
Qed.
Print Assumptions C157_bare_refuted.
(** The maker of random points fills what the caller leaves out and keeps what they give. *)
Theorem C157_defaults fs base d m : fst (rand_maker fs base d) = Ok m ->
  (forall k v, look k d = Some v -> look k (k_info m) = Some v) /\
  (forall k, look k d = None -> look k (k_info m) =
     if existsb (String.eqb k) ["LIM_REF"; "AREA"; "ZP"] then Some (VFloat 0) else if existsb (String.eqb k) ["REF_IND"; "NMAG"] then Some (VInt 0)
     else if String.eqb k "MODE" then Some (VStr "NONE") else None) /\
  k_file m = base ++ "_master_table.fit" /\ k_final m = false.
Proof.
  unfold rand_maker, gal_maker. cbn [fst]. destruct (negb (forallb _ required)); [discriminate|]. destruct (negb (has_slash _)); [discriminate|]. destruct (fs _); [discriminate|].
  intros E. injection E as <-. cbn [k_info k_file k_final]. repeat split.
  - intros k v H. rewrite look_fill, H. reflexivity.
  - intros k H. rewrite look_fill, H. unfold rand_defaults. cbn [look existsb].
    destruct (String.eqb_spec k "LIM_REF") as [->|N1]; [reflexivity|]. destruct (String.eqb_spec k "REF_IND") as [->|N2]; [reflexivity|].
    destruct (String.eqb_spec k "AREA") as [->|N3]; [reflexivity|]. destruct (String.eqb_spec k "NMAG") as [->|N4]; [reflexivity|].
    destruct (String.eqb_spec k "MODE") as [->|N5]; [reflexivity|]. destruct (String.eqb_spec k "ZP") as [->|N6]; reflexivity.
Qed.
Print Assumptions C157_defaults.
(** It therefore never misses a key, while the maker of galaxies raises KeyError exactly if one of the six is missing. *)
Theorem C157_keys fs base d : fst (rand_maker fs base d) <> Err KeyError /\ (gal_maker fs base d = Err KeyError <-> exists k, In k six_keys /\ look k d = None).
Proof.
  assert (K : gal_maker fs base d = Err KeyError <-> forallb (fun k => match look k d with Some _ => true | None => false end) required = false).
  { unfold gal_maker. destruct (forallb _ required); cbn; [|tauto]. split; [|discriminate]. destruct (has_slash _); [|discriminate]. destruct (fs _); discriminate. }
  split.
  - unfold rand_maker, gal_maker. cbn [fst]. replace (forallb _ required) with true.
    + cbn [negb]. destruct (has_slash _); [|discriminate]. destruct (fs _); discriminate.
    + symmetry. apply forallb_forall. intros k I. rewrite look_fill. destruct (look k d); [reflexivity|]. repeat (destruct I as [<-|I]; [reflexivity|]). destruct I.
  - rewrite K. change six_keys with required. split.
    + intros E. assert (X : existsb (fun k => match look k d with Some _ => false | None => true end) required = true).
      { revert E. generalize required. intros l. induction l as [|k l IH]; cbn; [discriminate|]. destruct (look k d); cbn; [exact IH|reflexivity]. }
      apply existsb_exists in X as (k & I & X). exists k. split; [exact I|]. destruct (look k d); [discriminate|reflexivity].
    + intros (k & I & X). destruct (forallb _ required) eqn:F; [|reflexivity]. rewrite forallb_forall in F. specialize (F k I). cbv beta in F. rewrite X in F. discriminate.
Qed.
Print Assumptions C157_keys.
(** Finding: the missing keys are written into the caller's own dictionary, also when the construction fails. *)
Theorem C157_dict_refuted fs base d k : In k six_keys -> look k d = None -> snd (rand_maker fs base d) <> d /\ exists v, look k (snd (rand_maker fs base d)) = Some v.
Proof.
  intros I N. assert (X : exists v, look k (fill d) = Some v).
  { rewrite look_fill, N. repeat (destruct I as [<-|I]; [eexists; reflexivity|]). destruct I. }
  split; [|exact X]. cbn [snd rand_maker]. intros E. rewrite E, N in X. destruct X as [v X]. discriminate.
Qed.
Print Assumptions C157_dict_refuted.
(** Finding: splitting random points never works: the module does not import os, and the call ends in a NameError (or in a RuntimeError
    for a finished catalogue); the same call on galaxies, and appending random points, work for every maker not finished whose
    table does not exist. *)
Theorem C157_split_refuted fs m : split_randoms m <> Ok tt /\ (k_final m = false -> split_randoms m = Err NameError) /\
  (append_randoms fs m = Ok tt <-> k_final m = false /\ fs (k_file m) = false) /\ (split_galaxies fs m = Ok tt <-> k_final m = false /\ fs (k_file m) = false).
Proof.
  unfold split_randoms, split_galaxies, append_randoms. destruct (k_final m), (fs (k_file m)); repeat split; try discriminate; try tauto; try (intros [? ?]; discriminate).
Qed.
Print Assumptions C157_split_refuted.
(** Random points are read by from_randfile only. *)
Theorem C157_read r : rand_read r = Ok tt <-> r = FromRandfile.
Proof. destruct r; split; intros H; try reflexivity; discriminate. Qed.
Print Assumptions C157_read.
Example C157_example : gen_file (fun _ => false) (Some "out/rand_master_table.fit") = Ok "out/rand_master_table.fit" /\
  gen_file (fun _ => false) (Some "out/rand_master_table_fit") = Ok "out/rand_master_table.fit" /\
  gen_file (fun _ => false) (Some "rand_master_table.fit") = Err RuntimeError /\ gen_file (fun _ => false) (Some "out/rand.fit") = Err RuntimeError /\
  look "AREA" (fill [("AREA", VFloat 5)]) = Some (VFloat 5) /\ look "NMAG" (fill [("AREA", VFloat 5)]) = Some (VInt 0).
Proof. repeat split. Qed.

(** What the caller gives is used; what they leave out comes from the configuration. *)
Theorem C158_sources {M C} (mask : Q -> res M) (cat : res C) conf vm vl gc s : get_sources mask cat conf vm vl gc = Ok s ->
  s_lstar s = match vl with Some q => q | None => conf end /\
  (forall m, vm = Some m -> s_mask s = m) /\ (vm = None -> mask (s_lstar s) = Ok (s_mask s)) /\
  (forall c, gc = Some c -> s_cat s = c) /\ (gc = None -> cat = Ok (s_cat s)).
Proof.
  unfold get_sources. destruct vm as [m|]; [|destruct (mask _) as [m|] eqn:E; [|discriminate]]; cbn [bind]; (destruct gc as [c|]; [|destruct cat as [c|] eqn:E2; [|discriminate]]); cbn [bind];
    intros H; injection H as <-; cbn; repeat split; try discriminate; try congruence.
Qed.
Print Assumptions C158_sources.
(** It fails only if something which is left out cannot be read. *)
Theorem C158_fails {M C} (mask : Q -> res M) (cat : res C) conf vm vl gc e : get_sources mask cat conf vm vl gc = Err e ->
  (vm = None /\ mask (match vl with Some q => q | None => conf end) = Err e) \/ (gc = None /\ cat = Err e).
Proof.
  unfold get_sources. destruct vm as [m|]; [|destruct (mask _) as [m|] eqn:E]; cbn [bind]; try (destruct gc as [c|]; [|destruct cat as [c|] eqn:E2]); cbn [bind]; intros H; try discriminate; injection H as ->; auto.
Qed.
Print Assumptions C158_fails.
(** With no mask given, the number in the names of the weights is that of the limit of the mask.  (Partial: not for a given mask,
    C158_limit_refuted.) *)
Theorem C158_limit_partial {C} (cat : res C) conf vl gc s : get_sources (fun q => Ok q) cat conf None vl gc = Ok s ->
  s_mask s = s_lstar s /\ (0 <= s_mask s -> inject_Z (name_number s) <= s_mask s * 10 < inject_Z (name_number s) + 1)%Q.
Proof.
  intros H. destruct (C158_sources _ _ _ _ _ _ _ H) as (_ & _ & E & _). specialize (E eq_refl). injection E as E. split; [congruence|]. intros P.
  unfold name_number. rewrite E. assert (Q0 : Qle_bool 0 (s_mask s * 10) = true). { apply Qle_bool_iff. apply Qmult_le_0_compat; [exact P|discriminate]. }
  rewrite Q0. split; [apply Qfloor_le|]. pose proof (Qlt_floor (s_mask s * 10)) as L. rewrite inject_Z_plus in L. exact L.
Qed.
Print Assumptions C158_limit_partial.
(** Finding: a mask given by the caller is used whatever limit it is for; the limit which enters the names of the weights is the one of
    the configuration or of the other argument. *)
Theorem C158_limit_refuted {C} (cat : C) conf mine : exists s, get_sources (fun q => Ok q) (Ok cat) conf (Some mine) None None = Ok s /\ s_mask s = mine /\ s_lstar s = conf.
Proof. eexists. repeat split. Qed.
Print Assumptions C158_limit_refuted.
(** For red galaxies the random points are set up exactly if both arguments are objects.  (Partial: the documented file names do not
    work, C158_names_refuted.) *)
Theorem C158_redmagic_partial {M C} (m : given M) (c : given C) r : redmagic_sources m c = Ok r <-> m = Obj (fst r) /\ c = Obj (snd r).
Proof.
  destruct r as [m' c']. unfold redmagic_sources. destruct m, c; cbn; split; intros H; try discriminate; try (injection H as -> ->; split; reflexivity); try (destruct H; discriminate); destruct H as [H1 H2]; injection H1 as ->; injection H2 as ->; reflexivity.
Qed.
Print Assumptions C158_redmagic_partial.
(** Finding: a file name for the mask is always an AttributeError, and a file name for the catalogue a NameError, although both are
    accepted by the check of the types. *)
Theorem C158_names_refuted {M C} (m : given M) (c : given C) s : redmagic_sources (M := M) (Str s) c = Err AttributeError /\
  (forall x, redmagic_sources (C := C) (Obj x : given M) (Str s) = Err NameError) /\ (forall x : M, redmagic_sources (C := C) (Obj x) Else = Err RuntimeError) /\ redmagic_sources (M := M) Else c = Err RuntimeError.
Proof. repeat split. Qed.
Print Assumptions C158_names_refuted.
Example C158_example : (exists s, get_sources (fun q => Ok q) (Ok 7%nat) (1 # 5) None (Some 5%Q) None = Ok s /\ s_mask s = 5%Q /\ name_number s = 50%Z /\ s_cat s = 7%nat) /\
  redmagic_sources (Obj 1%nat) (Obj 2%nat) = Ok (1%nat, 2%nat).
Proof. split; [eexists; repeat split|reflexivity]. Qed.
(** The errors: a finalised maker, or a table that exists, is a RuntimeError in every case. *)
Theorem C157_errors fs m : (k_final m = true -> split_randoms m = Err RuntimeError) /\
  (k_final m = true \/ fs (k_file m) = true -> append_randoms fs m = Err RuntimeError /\ split_galaxies fs m = Err RuntimeError).
Proof. unfold split_randoms, split_galaxies, append_randoms. destruct (k_final m), (fs (k_file m)); split; intros H; try (split; reflexivity); try reflexivity; try discriminate; destruct H; discriminate. Qed.
Print Assumptions C157_errors.
(** The number in the names is the limit times ten without its fraction, also below 0. *)
Theorem C158_number {M C} (s : sources M C) : (0 <= s_lstar s -> inject_Z (name_number s) <= s_lstar s * 10 < inject_Z (name_number s) + 1)%Q /\
  (s_lstar s < 0 -> inject_Z (name_number s) - 1 < s_lstar s * 10 <= inject_Z (name_number s))%Q.
Proof.
  unfold name_number. split; intros P.
  - assert (Q0 : Qle_bool 0 (s_lstar s * 10) = true) by (apply Qle_bool_iff; apply Qmult_le_0_compat; [exact P|discriminate]). rewrite Q0.
    split; [apply Qfloor_le|]. pose proof (Qlt_floor (s_lstar s * 10)) as L. rewrite inject_Z_plus in L. exact L.
  - assert (Q0 : Qle_bool 0 (s_lstar s * 10) = false). { apply Bool.not_true_is_false. intros H. apply Qle_bool_iff in H. Lqa.lra. } rewrite Q0.
    split; [|apply Qle_ceiling]. pose proof (Qceiling_lt (s_lstar s * 10)) as L. unfold Z.sub in L. rewrite inject_Z_plus in L. exact L.
Qed.
Print Assumptions C158_number.
