(** C179.  The columns of a catalogue of clusters. *)
From Coq Require Import String.
From Verif.Base Require Import Py PyLemmas.
From Verif.Model Require Import Catalog ClusCat.
From Verif.Spec Require Import Catalog ClusCat.
From Verif.Proofs Require Import Catalog ClusCat.
From Coq Require Import Lia List. Import ListNotations.
Local Open Scope string_scope.

(** A catalogue is built exactly when the names of the input, in lower case, and the wanted ones that it lacks are all different, and it is
    then the input completed with columns of zeros; it remembers the configuration it was given. *)
Theorem C179_open : forall arr dtype config c, clus_init arr dtype config = Ok c <->
  NoDup (map fst (all_columns [arr]) ++ lacking (map fst (all_columns [arr])) (wanted dtype config)) /\
  c = mkCC (completed arr (wanted dtype config)) config.
Proof. exact init_iff. Qed.
Print Assumptions C179_open.
Theorem C179_open_error : forall arr dtype config e, clus_init arr dtype config = Err e -> e = ValueError.
Proof. exact init_err. Qed.
Print Assumptions C179_open_error.

(** A file with distinct names is always readable, with the configuration's columns or without a configuration: nothing of the file is
    lost, every wanted column is there, those that the file lacks are zero, and there are no others. *)
Theorem C179_from_file : forall file config, NoDup (map fst (all_columns [file])) -> config = None \/ config = Some config_columns ->
  exists c, from_catfile file config = Ok c /\ nrows (cc_tab c) = nrows file /\
    (forall x v, In (x, v) (cols file) -> column (cc_tab c) (lower x) = Some v) /\
    (forall x, In x (match config with Some k => k | None => base_columns end) -> ~ In (lower x) (map fst (all_columns [file])) ->
       column (cc_tab c) (lower x) = Some (repeat 0%Z (nrows file))) /\
    (forall x, In x (names (cc_tab c)) <-> In x (map fst (all_columns [file])) \/
       In x (map lower (match config with Some k => k | None => base_columns end))).
Proof.
  intros file config D K. set (want := match config with Some k => k | None => base_columns end).
  assert (NoDup (map lower want)) as W by (destruct K as [->| ->]; [exact base_nodup|exact config_nodup]).
  exists (mkCC (completed file want) config). unfold from_catfile. split.
  { apply init_iff. cbn [wanted]. fold want. split; [apply NoDup_lacking; assumption|reflexivity]. }
  cbn [cc_tab]. split; [reflexivity|]. split; [intros x v I; apply completed_old; assumption|].
  split; [intros x I N; apply completed_new; assumption|]. intros x. rewrite completed_names, in_app_iff, lacking_In.
  destruct (in_dec string_dec x (map fst (all_columns [file]))); tauto.
Qed.
Print Assumptions C179_from_file.
Example C179_from_file_ex :
  let file := mkT 2 [("RA", [10; 20]%Z); ("Lambda", [5; 6]%Z); ("MYCOL", [1; 2]%Z)] in
  exists c, from_catfile file None = Ok c /\ column (cc_tab c) "mycol" = Some [1; 2]%Z /\ column (cc_tab c) "lambda" = Some [5; 6]%Z /\
    column (cc_tab c) "lnlike" = Some [0; 0]%Z /\ List.length (names (cc_tab c)) = 44.
Proof. eexists. split; [vm_compute; reflexivity|]. vm_compute. auto. Qed.
(** Two columns whose names differ only by case: such a file cannot be read. *)
Theorem C179_same_name : forall file dtype config, ~ NoDup (map fst (all_columns [file])) -> clus_init file dtype config = Err ValueError.
Proof.
  intros file dtype config N. destruct (clus_init file dtype config) as [c|e] eqn:E.
  - exfalso. apply N. apply init_iff in E. destruct E as [D _]. apply NoDup_app_l in D. exact D.
  - apply init_err in E. subst e. reflexivity.
Qed.
Print Assumptions C179_same_name.

(** Reading back what was written changes nothing, with the same configuration or with fewer wanted columns. *)
Theorem C179_reopen : forall arr dtype config c dtype' config', clus_init arr dtype config = Ok c ->
  incl (map lower (wanted dtype' config')) (names (cc_tab c)) -> clus_init (cc_tab c) dtype' config' = Ok (mkCC (cc_tab c) config').
Proof.
  intros arr dtype config c dtype' config' H I. apply init_iff in H. destruct H as [D ->]. cbn [cc_tab] in *.
  pose proof (completed_lower arr (wanted dtype config)) as L. apply init_iff. rewrite (lowered _ L).
  change (map fst (cols (completed arr (wanted dtype config)))) with (names (completed arr (wanted dtype config))).
  rewrite lacking_nil by exact I. rewrite app_nil_r, (completed_same _ _ L I). split; [rewrite completed_names; exact D|reflexivity].
Qed.
Print Assumptions C179_reopen.

(** Subsets of subsets, in any number, of a catalogue read from a file: they can always be taken, the columns and the configuration stay
    as they are and each row is the row of the catalogue that the picks lead to. *)
Theorem C179_subsets : forall file config c l, proper file -> config = None \/ config = Some config_columns ->
  from_catfile file config = Ok c -> in_range (nrows file) l ->
  exists d, subsets c l = Ok d /\ cc_config d = config /\ names (cc_tab d) = names (cc_tab c) /\
    nrows (cc_tab d) = List.length (fold_left pick l (seq 0 (nrows file))) /\
    forall x k i, nth_error (fold_left pick l (seq 0 (nrows file))) k = Some i -> cell (cc_tab d) x k = cell (cc_tab c) x i.
Proof.
  intros file config c l P K H R. unfold from_catfile in H. apply init_iff in H. destruct H as [_ ->].
  assert (NoDup (map lower (wanted None config))) as W by (destruct K as [->| ->]; [exact base_nodup|exact config_nodup]).
  destruct (subsets_same l (mkCC (completed file (wanted None config)) config)) with (rows := seq 0 (nrows file))
    (t0 := completed file (wanted None config)) as (d & A1 & A2 & A3 & _ & A5 & A6); cbn [cc_tab cc_config].
  - apply completed_good; assumption.
  - apply completed_has.
  - exact R.
  - apply seq_length.
  - intros x k i Hk. assert (k < nrows file) as B by (rewrite <- (seq_length (nrows file) 0); apply nth_error_Some; congruence).
    rewrite (nth_error_nth' _ 0) in Hk by (rewrite seq_length; exact B). rewrite seq_nth in Hk by exact B. injection Hk as <-. reflexivity.
  - exists d. auto.
Qed.
Print Assumptions C179_subsets.
Example C179_subsets_ex :
  let file := mkT 4 [("RA", [10; 20; 30; 40]%Z)] in
  proper file /\ in_range (nrows file) [[3; 1; 0]; [2; 0]] /\ fold_left pick [[3; 1; 0]; [2; 0]] (seq 0 4) = [0; 3].
Proof.
  split; [split; [apply nodup_str_iff; reflexivity|repeat constructor]|]. split; [|reflexivity]. cbn. split; [|split; [|exact I]].
  - intros j [<-|[<-|[<-|[]]]]; lia.
  - intros j [<-|[<-|[]]]; lia.
Qed.

(** Finding: a catalogue made with its own list of columns does not keep to it: every subset of it gains, as zeros, all the columns of
    its configuration (cluster.py:993 builds the subset without the list). *)
Theorem C179_subset_own_columns_refuted : forall arr d k c idx s x, clus_init arr (Some d) (Some k) = Ok c -> subset c idx = Ok s ->
  In x k -> ~ In (lower x) (names (cc_tab c)) ->
  column (cc_tab s) (lower x) = Some (repeat 0%Z (List.length idx)).
Proof.
  intros arr d k c idx s x H S I N. apply init_iff in H. destruct H as [_ ->]. cbn [cc_tab] in N.
  unfold subset in S. cbn [cc_tab cc_config] in S. set (t0 := completed arr (wanted (Some d) (Some k))) in *.
  destruct (take_rows t0 idx) as [t|] eqn:T; [|discriminate]. cbn [bind] in S. apply init_iff in S. destruct S as [_ ->]. cbn [cc_tab wanted].
  assert (names t = names t0) as En.
  { unfold take_rows in T. destruct (forallb _ _); [|discriminate]. injection T as <-. unfold names. cbn [cols]. unfold take_cols.
    rewrite map_map. reflexivity. }
  assert (nrows t = List.length idx) as Er by (unfold take_rows in T; destruct (forallb _ _); [|discriminate]; injection T as <-; reflexivity).
  rewrite <- Er. apply completed_new; [exact I|]. rewrite lowered; [change (~ In (lower x) (names t)); rewrite En; exact N|].
  intros y. rewrite En. apply completed_lower.
Qed.
Print Assumptions C179_subset_own_columns_refuted.
Example C179_subset_own_columns_ex : exists c s, randoms_cat 3 config_columns = Ok c /\ subset c [0; 2] = Ok s /\
  In "LIM_LIMMAG" config_columns /\ ~ In (lower "LIM_LIMMAG") (names (cc_tab c)).
Proof.
  eexists. eexists. split; [vm_compute; reflexivity|]. split; [vm_compute; reflexivity|]. split.
  - apply mem_str_iff. vm_compute. reflexivity.
  - apply mem_str_false. vm_compute. reflexivity.
Qed.

(** The catalogue that a run leaves: for an input read from a file with a configuration, the rows kept, with all their columns. *)
Theorem C179_crop : forall file c use, proper file -> from_catfile file (Some config_columns) = Ok c ->
  (forall j, In j use -> j < nrows file) ->
  exists d, crop c use = Ok d /\ names (cc_tab d) = names (cc_tab c) /\ nrows (cc_tab d) = List.length use /\ cc_config d = None /\
    forall x k i, nth_error use k = Some i -> cell (cc_tab d) x k = cell (cc_tab c) x i.
Proof.
  intros file c use P H R. unfold from_catfile in H. apply init_iff in H. destruct H as [_ ->]. cbn [wanted] in *.
  pose proof (completed_good file config_columns P config_nodup) as G.
  destruct (crop_same (mkCC (completed file config_columns) (Some config_columns)) use) as (t & T & C & _ & N & L); cbn [cc_tab] in *.
  - exact G.
  - intros x I. apply completed_has. unfold config_columns. rewrite map_app. apply in_or_app. left. exact I.
  - exact R.
  - exists (mkCC t None). split; [exact C|]. cbn [cc_tab cc_config]. pose proof (take_rows_ok _ _ _ (proj1 G) T) as (_ & _ & Cell & _).
    split; [exact N|]. split; [exact L|]. split; [reflexivity|]. intros x k i Hk. apply Cell. exact Hk.
Qed.
Print Assumptions C179_crop.

(** Finding: the table that the run over random points leaves does not have the sixteen columns it asks for but forty-six: the thirty base columns
    of clusters it did not ask for come back, all zero, among them the limiting magnitude that the run did compute. *)
Theorem C179_randoms_refuted : forall n use, (forall j, In j use -> j < n) ->
  exists c d, randoms_cat n config_columns = Ok c /\ names (cc_tab c) = map lower randoms_columns /\
    crop c use = Ok d /\ List.length (names (cc_tab d)) = 46 /\
    column (cc_tab d) "lim_limmag" = Some (repeat 0%Z (List.length use)).
Proof.
  intros n use R. set (z := mkT n (map (fun x => (x, repeat 0%Z n)) randoms_columns)).
  assert (np_zeros n randoms_columns = Ok z) as Z0 by (unfold np_zeros; replace (nodup_str randoms_columns) with true by (vm_compute; reflexivity); reflexivity).
  assert (map fst (all_columns [z]) = map lower randoms_columns) as Nz.
  { rewrite all_one, map_map. cbn [fst]. unfold z. cbn [cols]. rewrite map_map. reflexivity. }
  set (c := mkCC (completed z randoms_columns) (Some config_columns)).
  assert (randoms_cat n config_columns = Ok c) as Hc.
  { unfold randoms_cat, clus_zeros. rewrite Z0. cbn [bind]. apply init_iff. cbn [wanted]. split; [|reflexivity]. rewrite Nz.
    apply NoDup_lacking; exact randoms_nodup. }
  assert (lacking (map lower randoms_columns) randoms_columns = []) as L0 by (apply lacking_nil; intros x I; exact I).
  assert (names (cc_tab c) = map lower randoms_columns) as Nc by (unfold c; cbn [cc_tab]; rewrite completed_names, Nz, L0, app_nil_r; reflexivity).
  assert (proper z) as Pz.
  { split; [rewrite Nz; exact randoms_nodup|]. unfold z. cbn [cols nrows]. rewrite Forall_map, Forall_forall. intros x _. apply repeat_length. }
  pose proof (completed_good z randoms_columns Pz randoms_nodup) as G.
  destruct (take_rows_total (cc_tab c) use R) as [t T]. pose proof (take_good _ _ _ G T) as Gt.
  pose proof (take_rows_ok _ _ _ (proj1 G) T) as (Hn & N & _). change (names (completed z randoms_columns)) with (names (cc_tab c)) in N. rewrite Nc in N.
  exists c, (mkCC (completed t base_columns) None). destruct (good_proper t Gt) as [[P1 _] E].
  assert (map fst (all_columns [t]) = map lower randoms_columns) as Nt by (rewrite E; exact N).
  split; [exact Hc|]. split; [exact Nc|]. split.
  { unfold crop. rewrite T. cbn [bind]. apply init_iff. split; [|reflexivity]. rewrite Nt. apply NoDup_lacking; [exact randoms_nodup|exact base_nodup]. }
  cbn [cc_tab]. split.
  - rewrite completed_names, Nt. vm_compute. reflexivity.
  - rewrite <- Hn. change "lim_limmag" with (lower "LIM_LIMMAG"). apply completed_new.
    + apply mem_str_iff. vm_compute. reflexivity.
    + rewrite Nt. apply mem_str_false. vm_compute. reflexivity.
Qed.
Print Assumptions C179_randoms_refuted.

(** Redshift scans and colour runs add columns to the file they read: this works when the file has none of them ... *)
Theorem C179_extra_partial : forall extra file, extra = zscan_columns \/ extra = ["redcolor"] -> NoDup (map fst (all_columns [file])) ->
  (forall x, In x extra -> ~ In x (map fst (all_columns [file]))) ->
  exists c, open_with extra file config_columns = Ok c /\ cc_config c = Some config_columns /\
    (forall x, In x extra -> column (cc_tab c) x = Some (repeat 0%Z (nrows file))) /\
    (forall x v, In (x, v) (cols file) -> column (cc_tab c) (lower x) = Some v).
Proof.
  intros extra file X D N. assert (map lower extra = extra) as Lx by (destruct X as [->| ->]; reflexivity).
  assert (NoDup extra) as Dx by (apply nodup_str_iff; destruct X as [->| ->]; reflexivity).
  assert (forall x, In x extra -> ~ In x (map lower config_columns)) as Cx.
  { intros x I. apply mem_str_false. revert x I. apply Forall_forall.
    destruct X as [->| ->]; repeat (constructor; [vm_compute; reflexivity|]); constructor. }
  assert (forall x, In x extra -> ~ In x (names (completed file config_columns))) as Nx.
  { intros x I. rewrite completed_names, in_app_iff, lacking_In. intros [A|[_ A]]; [exact (N x I A)|exact (Cx x I A)]. }
  unfold open_with, from_catfile.
  rewrite (proj2 (init_iff file None (Some config_columns) (mkCC (completed file config_columns) (Some config_columns)))).
  2:{ cbn [wanted]. split; [apply NoDup_lacking; [exact D|exact config_nodup]|reflexivity]. }
  cbn [bind cc_tab cc_config].
  rewrite (proj2 (add_fields_ok _ _ _) (conj (NoDup_app_intro' (names (completed file config_columns)) (map lower extra)
    ltac:(rewrite completed_names; apply NoDup_lacking; [exact D|exact config_nodup]) ltac:(rewrite Lx; exact Dx)
    ltac:(intros x I J; rewrite Lx in J; exact (Nx x J I))) eq_refl)).
  cbn [bind]. eexists. split; [reflexivity|]. cbn [cc_tab cc_config]. split; [reflexivity|]. split.
  - intros x I. unfold column. cbn [cols]. rewrite find_app, (find_name_none _ _ (Nx x I)).
    replace (map (fun x0 => (lower x0, repeat 0%Z (nrows (completed file config_columns)))) extra)
      with (map (fun x0 => (x0, repeat 0%Z (nrows file))) extra).
    + rewrite zeros_column by exact I. reflexivity.
    + rewrite <- Lx at 1. rewrite map_map. reflexivity.
  - intros x v I. pose proof (completed_old file config_columns x v D I) as C. unfold column in *. cbn [cols]. rewrite find_app.
    destruct (find _ (cols (completed file config_columns))); [exact C|discriminate].
Qed.
Print Assumptions C179_extra_partial.
Example C179_extra_ex : let file := mkT 1 [("RA", [1]%Z)] in
  NoDup (map fst (all_columns [file])) /\ forall x, In x zscan_columns -> ~ In x (map fst (all_columns [file])).
Proof.
  split; [apply nodup_str_iff; reflexivity|]. intros x I. apply mem_str_false. revert x I. apply Forall_forall.
  repeat (constructor; [vm_compute; reflexivity|]). constructor.
Qed.

(** Finding: ... and a file that has one of them, for example the output of an earlier scan or colour run, is refused. *)
Theorem C179_extra_refuted : forall extra file config x, NoDup (map fst (all_columns [file])) -> NoDup (map lower config) ->
  In x extra -> In (lower x) (map fst (all_columns [file])) -> open_with extra file config = Err ValueError.
Proof.
  intros extra file config x D K I J. unfold open_with, from_catfile.
  rewrite (proj2 (init_iff file None (Some config) (mkCC (completed file config) (Some config)))).
  2:{ cbn [wanted]. split; [apply NoDup_lacking; [exact D|exact K]|reflexivity]. }
  cbn [bind cc_tab]. rewrite (add_fields_rejects _ _ x I); [reflexivity|]. rewrite completed_names. apply in_or_app. left. exact J.
Qed.
Print Assumptions C179_extra_refuted.
(** A second scan of what a scan has left. *)
Theorem C179_rescan_refuted : forall extra file c, extra = zscan_columns \/ extra = ["redcolor"] -> NoDup (map fst (all_columns [file])) ->
  open_with extra file config_columns = Ok c -> open_with extra (cc_tab c) config_columns = Err ValueError.
Proof.
  intros extra file c X D H. unfold open_with, from_catfile in H.
  rewrite (proj2 (init_iff file None (Some config_columns) (mkCC (completed file config_columns) (Some config_columns)))) in H.
  2:{ cbn [wanted]. split; [apply NoDup_lacking; [exact D|exact config_nodup]|reflexivity]. }
  cbn [bind cc_tab cc_config] in H. destruct (add_fields _ extra) as [t|] eqn:A; [|discriminate]. cbn [bind] in H. injection H as <-. cbn [cc_tab].
  apply add_fields_ok in A. destruct A as [Dt Et].
  assert (names t = names (completed file config_columns) ++ map lower extra)%list as Nt.
  { rewrite Et. unfold names. cbn [cols]. rewrite map_app, !map_map. reflexivity. }
  assert (forall x, In x (names t) -> lower x = x) as L.
  { intros x. rewrite Nt, in_app_iff. intros [I|I]; [exact (completed_lower _ _ _ I)|]. apply in_map_iff in I. destruct I as (y & <- & _).
    apply lower_idem. }
  destruct extra as [|x r] eqn:Ee; [destruct X; discriminate|]. apply (C179_extra_refuted _ _ _ x).
  - rewrite (lowered t L). change (NoDup (names t)). rewrite Nt. exact Dt.
  - exact config_nodup.
  - left. reflexivity.
  - rewrite (lowered t L). change (In (lower x) (names t)). rewrite Nt. apply in_or_app. right. left. reflexivity.
Qed.
Print Assumptions C179_rescan_refuted.
Example C179_rescan_ex : exists c, zscan_open (mkT 1 [("RA", [1]%Z)]) config_columns = Ok c /\
  exists d, colormem_open (mkT 1 [("RA", [1]%Z)]) config_columns = Ok d.
Proof. eexists. split; [vm_compute; reflexivity|]. eexists. vm_compute. reflexivity. Qed.
