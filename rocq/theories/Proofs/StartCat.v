From Coq Require Import String.
From Verif.Base Require Import Py PyLemmas.
From Verif.Model Require Import Catalog ClusCat StartCat.
From Verif.Spec Require Import Catalog ClusCat StartCat.
From Verif.Proofs Require Import Catalog ClusCat.
From Verif.Proofs Require Runner.
From Coq Require Import Lia List.
Import ListNotations.
Local Open Scope string_scope.

Lemma assoc_find {A} x (l : list (string * A)) : assoc_str x l = match find (fun c => String.eqb (fst c) x) l with Some c => Some (snd c) | None => None end.
Proof.
  induction l as [|[a v] l IH]; [reflexivity|]. cbn [assoc_str find fst]. rewrite String.eqb_sym. destruct (String.eqb a x); [reflexivity|exact IH].
Qed.
Lemma attr_col t a v : column t (lower a) = Some v -> attr t a = Ok v.
Proof. unfold attr, get_attr. rewrite assoc_find. unfold column. destruct (find _ _); congruence. Qed.
Lemma col_name t x v : column t x = Some v -> In x (names t).
Proof.
  unfold column. destruct (find _ _) as [c|] eqn:E; [|discriminate]. intros _. apply find_some in E. destruct E as [I E].
  apply String.eqb_eq in E. subst x. apply (in_map fst), I.
Qed.
Lemma name_col t x : In x (names t) -> exists v, column t x = Some v.
Proof.
  intros I. unfold column. destruct (find _ _) as [c|] eqn:E; [eauto|]. exfalso. apply in_map_iff in I. destruct I as (c & <- & I).
  pose proof (find_none _ _ E c I) as H. cbn in H. rewrite String.eqb_refl in H. discriminate.
Qed.

Definition put_col (t : table) (x : string) (v : list Z) (u : table) : Prop :=
  nrows u = nrows t /\ names u = names t /\ column u x = Some v /\ forall y, y <> x -> column u y = column t y.
Lemma assign_seq t a v : In (lower a) (names t) -> List.length v = nrows t -> exists u, assign t a (Seq v) = Ok u /\ put_col t (lower a) v u.
Proof.
  intros I L. destruct (set_attr_total t a (Seq v) I L) as (u & E). exists u. unfold assign. rewrite E. cbn [bind]. split; [reflexivity|].
  apply set_attr_ok in E. destruct E as (E1 & E2 & _ & E3 & E4 & _). repeat split; try assumption. rewrite E4. f_equal.
  destruct v as [|z [|z' v]]; [reflexivity| |reflexivity]. cbn in L. rewrite <- L. reflexivity.
Qed.
Lemma assign_scalar t a z : In (lower a) (names t) -> exists u, assign t a (Scalar z) = Ok u /\ put_col t (lower a) (repeat z (nrows t)) u.
Proof.
  intros I. destruct (set_attr_total t a (Scalar z) I Logic.I) as (u & E). exists u. unfold assign. rewrite E. cbn [bind]. split; [reflexivity|].
  apply set_attr_ok in E. destruct E as (E1 & E2 & _ & E3 & E4 & _). repeat split; assumption.
Qed.

(** copying columns *)
Lemma copy_ok src l : forall t, NoDup (map (fun p => lower (fst p)) l) ->
  (forall a b, In (a, b) l -> In (lower a) (names t) /\ exists v, column src (lower b) = Some v /\ List.length v = nrows t) ->
  exists u, copy_columns src l t = Ok u /\ nrows u = nrows t /\ names u = names t /\
    (forall a b, In (a, b) l -> column u (lower a) = column src (lower b)) /\
    (forall x, ~ In x (map (fun p => lower (fst p)) l) -> column u x = column t x).
Proof.
  induction l as [|[a b] l IH]; intros t D H; cbn [copy_columns].
  - exists t. repeat split; auto. intros a b [].
  - destruct (H a b (or_introl eq_refl)) as (Ha & v & Hv & Lv). rewrite (attr_col _ _ _ Hv). cbn [bind].
    destruct (assign_seq t a v Ha Lv) as (u & E & P1 & P2 & P3 & P4). rewrite E. cbn [bind].
    cbn [map fst] in D. inversion D as [|? ? D1 D2]; subst.
    destruct (IH u D2) as (w & W & W1 & W2 & W3 & W4).
    { intros a' b' I. destruct (H a' b' (or_intror I)) as (X & Y). rewrite P1, P2. split; assumption. }
    exists w. split; [exact W|]. split; [congruence|]. split; [congruence|]. split.
    + intros a' b' [[= <- <-]|I]; [|apply W3, I]. rewrite (W4 (lower a) D1), P3. symmetry. exact Hv.
    + intros x N. cbn [map fst] in N. rewrite W4 by (intros I; apply N; right; exact I). apply P4. intros ->. apply N. left. reflexivity.
Qed.

Lemma one_to_eq n : one_to n = map (fun k => Z.of_nat (S k)) (seq 0 n).
Proof. apply map_ext. intros k. lia. Qed.

(** identifiers *)
Lemma number_ok t ids new : column t "mem_match_id" = Some ids -> List.length ids = nrows t -> Runner.generate_ids ids = Ok new ->
  exists u, number t = Ok u /\ put_col t "mem_match_id" new u.
Proof.
  intros C L G. unfold number. change "mem_match_id" with (lower "mem_match_id") in C at 1. rewrite (attr_col _ _ _ C). cbn [bind]. rewrite G. cbn [bind].
  apply (assign_seq t "mem_match_id" new); [apply (col_name _ _ _ C)|]. destruct (Runner.generate_ok _ _ G) as [_ ->]. exact L.
Qed.
Lemma number_err t ids e : column t "mem_match_id" = Some ids -> Runner.generate_ids ids = Err e -> number t = Err e.
Proof.
  intros C G. unfold number. change "mem_match_id" with (lower "mem_match_id") in C at 1. rewrite (attr_col _ _ _ C). cbn [bind]. rewrite G. reflexivity.
Qed.

Lemma good_len t x v : Forall (fun c => List.length (snd c) = nrows t) (cols t) -> column t x = Some v -> List.length v = nrows t.
Proof.
  intros F C. unfold column in C. destruct (find _ _) as [c|] eqn:E; [|discriminate]. injection C as <-. apply find_some in E.
  rewrite Forall_forall in F. apply (F c), E.
Qed.

(** opening *)
Lemma open_catfile file : NoDup (map fst (all_columns [file])) ->
  from_catfile file (Some config_columns) = Ok (mkCC (completed file config_columns) (Some config_columns)).
Proof. intros D. unfold from_catfile. apply init_iff. cbn [wanted]. split; [apply NoDup_lacking; [exact D|exact config_nodup]|reflexivity]. Qed.
Lemma completed_len file : Forall (fun c => List.length (snd c) = nrows file) (cols file) ->
  Forall (fun c => List.length (snd c) = nrows (completed file config_columns)) (cols (completed file config_columns)).
Proof.
  intros F. unfold completed. cbn [cols nrows]. apply Forall_app. split.
  - rewrite all_one. apply Forall_map. eapply Forall_impl; [|exact F]. intros c H. exact H.
  - apply Forall_map. apply Forall_forall. intros x _. cbn [snd]. apply repeat_length.
Qed.

(** what opening a file and numbering its clusters gives *)
Lemma ids_completed file o : proper file -> file_ids file o ->
  column (completed file config_columns) "mem_match_id" = Some (match o with Some l => l | None => repeat 0%Z (nrows file) end).
Proof.
  intros [D F] H. destruct o as [l|]; cbn in H.
  - destruct H as (x & I & <-). apply completed_old; assumption.
  - change "mem_match_id" with (lower "MEM_MATCH_ID"). apply completed_new; [left; reflexivity|exact H].
Qed.
Lemma gen_run_ids n o ids : run_ids n o ids -> Runner.generate_ids (match o with Some l => l | None => repeat 0%Z n end) = Ok ids.
Proof.
  destruct o as [l|]; cbn.
  - intros (N & L & ->). apply Runner.generate_kept; assumption.
  - intros (N & ->). destruct n as [|n]; [lia|]. rewrite one_to_eq. apply Runner.generate_same.
Qed.
Lemma completed_opened file : proper file -> opened [] file (completed file config_columns).
Proof.
  intros [D F]. split; [reflexivity|]. split.
  - intros x v I _. apply completed_old; assumption.
  - intros x I N _. apply completed_new; assumption.
Qed.
Lemma opened_put l file t x v u : opened l file t -> put_col t x v u -> opened (x :: l) file u.
Proof.
  intros (O1 & O2 & O3) (P1 & _ & _ & P4). split; [congruence|]. split.
  - intros y w I N. rewrite P4 by (intros E; apply N; left; congruence). apply O2; [exact I|]. intros J. apply N. right. exact J.
  - intros y I J N. rewrite P4 by (intros E; apply N; left; congruence). apply O3; [exact I|exact J|]. intros K. apply N. right. exact K.
Qed.
Lemma widened file tc extra : opened [] file tc -> Forall (fun c => List.length (snd c) = nrows tc) (cols tc) ->
  (forall x, In x config_columns -> In (lower x) (names tc)) ->
  let u := mkT (nrows tc) (cols tc ++ map (fun x => (lower x, repeat 0%Z (nrows tc))) extra) in
  opened [] file u /\ Forall (fun c => List.length (snd c) = nrows u) (cols u) /\
  forall x, In x (names tc) -> In x (names u) /\ column u x = column tc x.
Proof.
  intros (O1 & O2 & O3) F B u.
  assert (K : forall x, In x (names tc) -> column u x = column tc x).
  { intros x I. destruct (name_col _ _ I) as (v & V). rewrite V. unfold column in *. subst u. cbn [cols]. rewrite find_app.
    destruct (find _ (cols tc)); [exact V|discriminate]. }
  split; [|split].
  - split; [exact O1|]. split.
    + intros x v I J. rewrite K; [apply O2; assumption|]. apply (col_name _ _ v). apply O2; assumption.
    + intros x I J T. rewrite K; [apply O3; assumption|]. apply B, I.
  - subst u. cbn [cols nrows]. apply Forall_app. split; [exact F|]. apply Forall_map, Forall_forall. intros x _. apply repeat_length.
  - intros x I. split; [|apply K, I]. subst u. unfold names. cbn [cols]. rewrite map_app. apply in_or_app. left. exact I.
Qed.
Lemma open_zscan file : proper file -> (forall x, In x zscan_columns -> ~ In x (map fst (all_columns [file]))) ->
  exists c, zscan_open file config_columns = Ok c /\ opened [] file (cc_tab c) /\
    Forall (fun c0 => List.length (snd c0) = nrows (cc_tab c)) (cols (cc_tab c)) /\
    (forall x, In x (names (completed file config_columns)) -> In x (names (cc_tab c)) /\ column (cc_tab c) x = column (completed file config_columns) x).
Proof.
  intros P N. pose proof P as [D F]. set (extra := zscan_columns) in *.
  assert (Lx : map lower extra = extra) by reflexivity.
  assert (Dx : NoDup extra) by (apply nodup_str_iff; reflexivity).
  assert (Cx : forall x, In x extra -> ~ In x (map lower config_columns)).
  { intros x I. apply mem_str_false. revert x I. apply Forall_forall. repeat (constructor; [vm_compute; reflexivity|]); constructor. }
  assert (Nx : forall x, In x extra -> ~ In x (names (completed file config_columns))).
  { intros x I. rewrite completed_names, in_app_iff, lacking_In. intros [A|[_ A]]; [exact (N x I A)|exact (Cx x I A)]. }
  assert (Dc : NoDup (names (completed file config_columns))) by (rewrite completed_names; apply NoDup_lacking; [exact D|exact config_nodup]).
  unfold zscan_open, open_with. rewrite (open_catfile file D). cbn [bind cc_tab cc_config]. fold extra.
  rewrite (proj2 (add_fields_ok _ _ _) (conj (NoDup_app_intro' (names (completed file config_columns)) (map lower extra) Dc
    ltac:(rewrite Lx; exact Dx) ltac:(intros x I J; rewrite Lx in J; exact (Nx x J I))) eq_refl)).
  cbn [bind]. eexists. split; [reflexivity|]. cbn [cc_tab]. apply widened; [apply completed_opened, P|apply completed_len, F|].
  intros x I. apply completed_has. apply in_map, I.
Qed.
Lemma base_in file x : In x config_columns -> In (lower x) (names (completed file config_columns)).
Proof. intros I. apply completed_has. apply in_map, I. Qed.
Lemma in_config x : mem_str x config_columns = true -> In x config_columns.
Proof. apply mem_str_iff. Qed.
