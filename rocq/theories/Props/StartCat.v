(** C184: the catalogue with which a run starts. *)
From Coq Require Import String.
From Verif.Base Require Import Py PyLemmas.
From Verif.Model Require Import Catalog ClusCat StartCat.
From Verif.Spec Require Import Catalog ClusCat StartCat.
From Verif.Proofs Require Import Catalog ClusCat StartCat.
From Verif.Proofs Require Runner.
From Coq Require Import Lia List.
Import ListNotations.
Local Open Scope string_scope.

(** A run on random points starts with exactly the points of the file, in their order, whatever their number: position, identifier,
    identifier of the input cluster, redshift and richness, the last two also in the columns that are never changed again; everything
    that the run measures starts as zero. *)
Theorem C184_randoms : forall incat ra dec id z lam idin, points incat ra dec id z lam idin ->
  exists t, zmask_start incat config_columns = Ok t /\ nrows t = nrows incat /\ names t = map lower randoms_columns /\
    column t "ra" = Some ra /\ column t "dec" = Some dec /\ column t "mem_match_id" = Some id /\ column t "id_input" = Some idin /\
    column t "z" = Some z /\ column t "z_in" = Some z /\ column t "lambda" = Some lam /\ column t "lambda_in" = Some lam /\
    forall x, In x ["lambda_e"; "z_lambda"; "z_lambda_e"; "r_lambda"; "r_mask"; "scaleval"; "maskfrac"; "ebv_mean"] ->
      column t x = Some (repeat 0%Z (nrows incat)).
Proof.
  intros incat ra dec id z lam idin (P1 & P2 & P3 & P4 & P5 & P6 & F).
  set (n := nrows incat) in *. set (z0 := mkT n (map (fun x => (x, repeat 0%Z n)) randoms_columns)).
  assert (Z0 : np_zeros n randoms_columns = Ok z0) by (unfold np_zeros; replace (nodup_str randoms_columns) with true by (vm_compute; reflexivity); reflexivity).
  assert (Dz : NoDup (map fst (all_columns [z0]))).
  { rewrite all_one, map_map. unfold z0. cbn [cols fst]. rewrite map_map. cbn [fst]. exact randoms_nodup. }
  assert (Nz : map fst (all_columns [z0]) = map lower randoms_columns).
  { rewrite all_one, map_map. unfold z0. cbn [cols fst]. rewrite map_map. reflexivity. }
  set (t0 := completed z0 randoms_columns).
  assert (Rc : randoms_cat n config_columns = Ok (mkCC t0 (Some config_columns))).
  { unfold randoms_cat, clus_zeros. rewrite Z0. cbn [bind]. apply init_iff. cbn [wanted]. split; [|reflexivity].
    apply NoDup_lacking; [exact Dz|exact randoms_nodup]. }
  assert (N0 : names t0 = map lower randoms_columns).
  { unfold t0. rewrite completed_names, lacking_nil by (rewrite Nz; intros x I; exact I). rewrite app_nil_r. exact Nz. }
  assert (C0 : forall x, In x randoms_columns -> column t0 (lower x) = Some (repeat 0%Z n)).
  { intros x I. apply completed_old; [exact Dz|]. unfold z0. cbn [cols]. apply in_map_iff. exists x. split; [reflexivity|exact I]. }
  unfold zmask_start. fold n. rewrite Rc. cbn [bind cc_tab].
  rewrite !Forall_cons_iff in F. destruct F as (F1 & F2 & F3 & F4 & F5 & F6 & _).
  destruct (copy_ok incat zmask_copies t0) as (t & E & T1 & T2 & T3 & T4).
  { apply nodup_str_iff. vm_compute. reflexivity. }
  { rewrite N0. change (nrows t0) with n. intros a b I.
    repeat (destruct I as [[= <- <-]|I]; [split; [apply mem_str_iff; vm_compute; reflexivity|eauto]|]). destruct I. }
  exists t. split; [exact E|]. split; [exact T1|]. split; [congruence|].
  assert (G : forall a b v, In (a, b) zmask_copies -> column incat (lower b) = Some v -> column t (lower a) = Some v) by (intros a b v I V; rewrite <- V; apply T3, I).
  split; [apply (G "ra" "ra"); [cbn; tauto|exact P1]|]. split; [apply (G "dec" "dec"); [cbn; tauto|exact P2]|].
  split; [apply (G "mem_match_id" "id"); [cbn; tauto|exact P3]|]. split; [apply (G "id_input" "id_input"); [cbn; tauto|exact P6]|].
  split; [apply (G "z" "z"); [cbn; tauto|exact P4]|]. split; [apply (G "z_in" "z"); [cbn; tauto|exact P4]|].
  split; [apply (G "Lambda" "Lambda"); [cbn; tauto|exact P5]|]. split; [apply (G "lambda_in" "Lambda"); [cbn; tauto|exact P5]|].
  intros x I. rewrite T4.
  - cbn in I. repeat (destruct I as [<-|I]; [match goal with |- column t0 ?y = _ =>
      let rec go l := match l with ?a :: ?r => first [change y with (lower a); apply C0; cbn; tauto | go r] end in
      let l := eval cbv in randoms_columns in go l end|]). destruct I.
  - apply mem_str_false. cbn in I. repeat (destruct I as [<-|I]; [vm_compute; reflexivity|]). destruct I.
Qed.
Print Assumptions C184_randoms.

(** A run on the clusters of a file: identifiers that are distinct stay, missing ones are counted from 1; nothing else of the file
    changes. *)
Theorem C184_clusters_partial : forall file o ids, proper file -> file_ids file o -> run_ids (nrows file) o ids ->
  exists t, runcat_start file config_columns = Ok t /\ opened ["mem_match_id"] file t /\ column t "mem_match_id" = Some ids.
Proof.
  intros file o ids P H R. unfold runcat_start. rewrite (open_catfile file (proj1 P)). cbn [bind cc_tab].
  destruct (number_ok (completed file config_columns) _ ids (ids_completed file o P H)) as (u & E & U).
  - destruct o as [l|]; [|apply repeat_length]. destruct H as (x & I & _). destruct P as [_ F]. rewrite Forall_forall in F. apply (F _ I).
  - apply gen_run_ids, R.
  - exists u. split; [exact E|]. split; [|apply U]. apply (opened_put [] file (completed file config_columns) "mem_match_id" ids u); [apply completed_opened, P|exact U].
Qed.
Print Assumptions C184_clusters_partial.

(** A scan in redshift: moreover the original position is the position of the file and the redshift is the first of the scan. *)
Theorem C184_scan_partial : forall file o ids z0 zs, proper file -> (forall x, In x zscan_columns -> ~ In x (map fst (all_columns [file]))) ->
  file_ids file o -> run_ids (nrows file) o ids ->
  exists t, zscan_start file config_columns (z0 :: zs) = Ok t /\
    opened ["z"; "z_init"; "dec_orig"; "ra_orig"; "mem_match_id"] file t /\ column t "mem_match_id" = Some ids /\
    column t "ra_orig" = column t "ra" /\ column t "dec_orig" = column t "dec" /\
    column t "z" = Some (repeat z0 (nrows file)) /\ column t "z_init" = Some (repeat z0 (nrows file)).
Proof.
  intros file o ids z0 zs P N H R. unfold zscan_start. destruct (open_zscan file P N) as (c & Ec & O & Fc & K). rewrite Ec. cbn [bind].
  set (t0 := cc_tab c) in *.
  assert (B : forall x, mem_str x config_columns = true -> In (lower x) (names t0)) by (intros x I; apply K, base_in, mem_str_iff, I).
  assert (Ci : column t0 "mem_match_id" = Some (match o with Some l => l | None => repeat 0%Z (nrows file) end)).
  { rewrite <- (ids_completed file o P H). apply K. apply (base_in file "MEM_MATCH_ID"). left. reflexivity. }
  destruct (number_ok t0 _ ids Ci) as (t1 & E1 & U1); [apply (good_len t0 "mem_match_id"); assumption|apply gen_run_ids, R|].
  rewrite E1. cbn [bind]. destruct (name_col t0 "ra" (B "RA" eq_refl)) as (ra & Cra). destruct (name_col t0 "dec" (B "DEC" eq_refl)) as (dec & Cdec).
  pose proof U1 as (U1a & U1b & U1c & U1d).
  assert (A1 : attr t1 "ra" = Ok ra) by (apply attr_col; change (lower "ra") with "ra"; rewrite U1d by discriminate; exact Cra). rewrite A1. cbn [bind].
  destruct (assign_seq t1 "ra_orig" ra) as (t2 & E2 & U2).
  { rewrite U1b. exact (B "RA_ORIG" eq_refl). } { rewrite U1a. apply (good_len t0 "ra"); assumption. }
  rewrite E2. cbn [bind]. pose proof U2 as (U2a & U2b & U2c & U2d). change (lower "ra_orig") with "ra_orig" in *.
  assert (A2 : attr t2 "dec" = Ok dec) by (apply attr_col; change (lower "dec") with "dec"; rewrite U2d, U1d by discriminate; exact Cdec). rewrite A2. cbn [bind].
  destruct (assign_seq t2 "dec_orig" dec) as (t3 & E3 & U3).
  { rewrite U2b, U1b. exact (B "DEC_ORIG" eq_refl). } { rewrite U2a, U1a. apply (good_len t0 "dec"); assumption. }
  rewrite E3. cbn [bind]. pose proof U3 as (U3a & U3b & U3c & U3d). change (lower "dec_orig") with "dec_orig" in *.
  destruct (assign_scalar t3 "z_init" z0) as (t4 & E4 & U4). { rewrite U3b, U2b, U1b. exact (B "Z_INIT" eq_refl). }
  rewrite E4. cbn [bind]. pose proof U4 as (U4a & U4b & U4c & U4d). change (lower "z_init") with "z_init" in *.
  destruct (assign_scalar t4 "z" z0) as (t5 & E5 & U5). { rewrite U4b, U3b, U2b, U1b. exact (B "Z" eq_refl). }
  pose proof U5 as (U5a & U5b & U5c & U5d). change (lower "z") with "z" in *. destruct O as (O1 & O') eqn:EO.
  exists t5. split; [exact E5|]. split.
  { eapply opened_put; [|exact U5]. eapply opened_put; [|exact U4]. eapply opened_put; [|exact U3]. eapply opened_put; [|exact U2].
    eapply opened_put; [|exact U1]. split; [exact O1|exact O']. }
  split; [rewrite U5d, U4d, U3d, U2d by discriminate; exact U1c|].
  split; [rewrite !U5d, !U4d, !U3d by discriminate; rewrite U2c, U2d, U1d by discriminate; congruence|].
  split; [rewrite !U5d, !U4d by discriminate; rewrite U3c, U3d, U2d, U1d by discriminate; congruence|].
  split; [rewrite U5c; do 2 f_equal; congruence|rewrite U5d by discriminate; rewrite U4c; do 2 f_equal; congruence].
Qed.
Print Assumptions C184_scan_partial.

(** Finding: the only cluster of a file loses its identifier: it is number 1 afterwards. *)
Theorem C184_single_refuted : forall file i, proper file -> nrows file = 1 -> file_ids file (Some [i]) ->
  exists t, runcat_start file config_columns = Ok t /\ opened ["mem_match_id"] file t /\ column t "mem_match_id" = Some [1%Z].
Proof.
  intros file i P N H. unfold runcat_start. rewrite (open_catfile file (proj1 P)). cbn [bind cc_tab].
  destruct (number_ok (completed file config_columns) _ [1%Z] (ids_completed file _ P H)) as (u & E & U).
  - symmetry. exact N.
  - exact (Runner.generate_same i 0).
  - exists u. split; [exact E|]. split; [|apply U]. apply (opened_put [] file (completed file config_columns) "mem_match_id" [1%Z] u); [apply completed_opened, P|exact U].
Qed.
Print Assumptions C184_single_refuted.

(** Finding: a file without positions (or with columns of other names, for example RA_J2000) is not refused: every one of its clusters is
    put at right ascension 0 and declination 0. *)
Theorem C184_positions_refuted : forall file o ids, proper file -> file_ids file o -> run_ids (nrows file) o ids ->
  ~ In "ra" (map fst (all_columns [file])) -> ~ In "dec" (map fst (all_columns [file])) ->
  exists t, runcat_start file config_columns = Ok t /\ column t "ra" = Some (repeat 0%Z (nrows file)) /\
    column t "dec" = Some (repeat 0%Z (nrows file)).
Proof.
  intros file o ids P H R N1 N2. destruct (C184_clusters_partial file o ids P H R) as (t & E & (_ & _ & O) & _). exists t. split; [exact E|]. split.
  - apply (O "RA"); [apply mem_str_iff; vm_compute; reflexivity|exact N1|]. intros [X|[]]. discriminate X.
  - apply (O "DEC"); [apply mem_str_iff; vm_compute; reflexivity|exact N2|]. intros [X|[]]. discriminate X.
Qed.
Print Assumptions C184_positions_refuted.

(** What stops a run: an empty file (ValueError), identifiers some of which are equal and some of which differ (RuntimeError), and,
    for a scan, an empty range of redshifts (IndexError). *)
Theorem C184_refused : forall file o, proper file -> file_ids file o ->
  (nrows file = 0 -> runcat_start file config_columns = Err ValueError) /\
  (forall l, o = Some l -> ~ NoDup l -> (exists a b, In a l /\ In b l /\ a <> b) -> runcat_start file config_columns = Err RuntimeError) /\
  (forall ids, (forall x, In x zscan_columns -> ~ In x (map fst (all_columns [file]))) -> run_ids (nrows file) o ids ->
     zscan_start file config_columns [] = Err IndexError).
Proof.
  intros file o P H. unfold runcat_start. rewrite (open_catfile file (proj1 P)). cbn [bind cc_tab].
  pose proof (ids_completed file o P H) as C. split; [|split].
  - intros N. apply (number_err _ _ ValueError C). destruct o as [l|]; [|rewrite N; reflexivity].
    destruct H as (x & I & _). destruct P as [_ F]. rewrite Forall_forall in F. specialize (F _ I). cbn in F. rewrite N in F.
    destruct l; [reflexivity|discriminate].
  - intros l -> D1 D2. apply (number_err _ _ RuntimeError C). apply Runner.generate_dups. split; assumption.
  - intros ids N R. unfold zscan_start. destruct (open_zscan file P N) as (c & Ec & O & Fc & K). rewrite Ec. cbn [bind].
    set (t0 := cc_tab c) in *.
    assert (B : forall x, mem_str x config_columns = true -> In (lower x) (names t0)) by (intros x I; apply K, base_in, mem_str_iff, I).
    assert (Ci : column t0 "mem_match_id" = Some (match o with Some l => l | None => repeat 0%Z (nrows file) end)).
    { rewrite <- C. apply K. apply (base_in file "MEM_MATCH_ID"). left. reflexivity. }
    destruct (number_ok t0 _ ids Ci) as (t1 & E1 & U1); [apply (good_len t0 "mem_match_id"); assumption|apply gen_run_ids, R|].
    rewrite E1. cbn [bind]. destruct (name_col t0 "ra" (B "RA" eq_refl)) as (ra & Cra). destruct (name_col t0 "dec" (B "DEC" eq_refl)) as (dec & Cdec).
    pose proof U1 as (U1a & U1b & U1c & U1d).
    assert (A1 : attr t1 "ra" = Ok ra) by (apply attr_col; change (lower "ra") with "ra"; rewrite U1d by discriminate; exact Cra). rewrite A1. cbn [bind].
    destruct (assign_seq t1 "ra_orig" ra) as (t2 & E2 & U2).
    { rewrite U1b. exact (B "RA_ORIG" eq_refl). } { rewrite U1a. apply (good_len t0 "ra"); assumption. }
    rewrite E2. cbn [bind]. pose proof U2 as (U2a & U2b & U2c & U2d). change (lower "ra_orig") with "ra_orig" in *.
    assert (A2 : attr t2 "dec" = Ok dec) by (apply attr_col; change (lower "dec") with "dec"; rewrite U2d, U1d by discriminate; exact Cdec). rewrite A2. cbn [bind].
    destruct (assign_seq t2 "dec_orig" dec) as (t3 & E3 & U3).
    { rewrite U2b, U1b. exact (B "DEC_ORIG" eq_refl). } { rewrite U2a, U1a. apply (good_len t0 "dec"); assumption. }
    rewrite E3. reflexivity.
Qed.
Print Assumptions C184_refused.

(** files with and without identifiers, and a table of random points *)
Definition ex_file : table := mkT 2 [("MEM_MATCH_ID", [7; 3]%Z); ("RA", [10; 20]%Z); ("DEC", [1; 2]%Z); ("Z", [5; 6]%Z)].
Example C184_ex : proper ex_file /\ file_ids ex_file (Some [7; 3]%Z) /\ run_ids (nrows ex_file) (Some [7; 3]%Z) [7; 3]%Z /\
  (forall x, In x zscan_columns -> ~ In x (map fst (all_columns [ex_file]))) /\
  proper (mkT 1 [("mem_match_id", [77]%Z)]) /\ file_ids (mkT 1 [("mem_match_id", [77]%Z)]) (Some [77%Z]) /\
  points (mkT 2 [("ra", [1; 2]); ("dec", [3; 4]); ("id", [5; 6]); ("z", [7; 8]); ("lambda", [9; 10]); ("id_input", [11; 11])]%Z)
    [1; 2]%Z [3; 4]%Z [5; 6]%Z [7; 8]%Z [9; 10]%Z [11; 11]%Z.
Proof.
  split; [split; [apply nodup_str_iff; reflexivity|repeat constructor]|].
  split; [exists "MEM_MATCH_ID"; split; [left; reflexivity|reflexivity]|].
  split; [split; [repeat constructor; cbn; intuition lia|split; [cbn; lia|reflexivity]]|].
  split; [intros x I; apply mem_str_false; revert x I; apply Forall_forall; repeat (constructor; [vm_compute; reflexivity|]); constructor|].
  split; [split; [apply nodup_str_iff; reflexivity|repeat constructor]|].
  split; [exists "mem_match_id"; split; [left; reflexivity|reflexivity]|].
  repeat split; repeat constructor.
Qed.
