From Coq Require Import String Ascii.
From Verif.Base Require Import Py PyLemmas.
From Verif.Model Require Import Catalog ClusCat.
From Verif.Spec Require Import Catalog ClusCat.
From Verif.Proofs Require Import Catalog.
From Coq Require Import Lia List. Import ListNotations.

Lemma lower_ascii_idem a : lower_ascii (lower_ascii a) = lower_ascii a.
Proof. destruct a as [[] [] [] [] [] [] [] []]; reflexivity. Qed.
Lemma lower_idem s : lower (lower s) = lower s.
Proof. induction s as [|a s IH]; [reflexivity|]. cbn [lower]. rewrite lower_ascii_idem, IH. reflexivity. Qed.

Lemma lacking_filter have want :
  map lower (filter (fun x => negb (mem_str (lower x) have)) want) = lacking have want.
Proof.
  unfold lacking. induction want as [|w r IH]; [reflexivity|]. cbn [filter map].
  destruct (in_dec string_dec (lower w) have) as [i|n].
  - rewrite (proj2 (mem_str_iff _ _) i). exact IH.
  - rewrite (proj2 (mem_str_false _ _) n). cbn [negb map]. rewrite IH. reflexivity.
Qed.
Lemma lacking_In have want x : In x (lacking have want) <-> ~ In x have /\ In x (map lower want).
Proof.
  unfold lacking. rewrite filter_In. destruct (in_dec string_dec x have); split; intros [A B]; split; auto; try congruence; tauto.
Qed.
Lemma lacking_nil have want : incl (map lower want) have -> lacking have want = [].
Proof.
  intros H. destruct (lacking have want) as [|x l] eqn:E; [reflexivity|]. exfalso.
  assert (In x (lacking have want)) as I by (rewrite E; left; reflexivity). apply lacking_In in I. destruct I as [A B]. apply A, H, B.
Qed.
Lemma all_one arr : all_columns [arr] = map (fun c => (lower (fst c), snd c)) (cols arr).
Proof. unfold all_columns. cbn. apply app_nil_r. Qed.

Lemma init_iff arr dtype config c : clus_init arr dtype config = Ok c <->
  NoDup (map fst (all_columns [arr]) ++ lacking (map fst (all_columns [arr])) (wanted dtype config)) /\
  c = mkCC (completed arr (wanted dtype config)) config.
Proof.
  unfold clus_init. set (want := wanted dtype config). set (old := all_columns [arr]).
  destruct (catalog_init [arr]) as [t|e] eqn:E; cbn [bind].
  - apply catalog_init_ok in E; [|discriminate]. destruct E as (n & F & D & ->). inversion F as [|? ? En _]; subst.
    fold old in D. fold old. cbv zeta. pose proof (lacking_filter (map fst old) want) as L.
    change (names (mkT (nrows arr) old)) with (map fst old).
    set (aug := filter (fun x => negb (mem_str (lower x) (map fst old))) want) in *. clearbody aug. destruct aug as [|a r].
    + cbn [map] in L. rewrite <- L, app_nil_r. cbn [bind]. unfold completed. fold old. rewrite <- L. cbn [map]. rewrite app_nil_r.
      split; [intros [= <-]; split; [exact D|reflexivity]|intros [_ ->]; reflexivity].
    + remember (a :: r) as aug eqn:Ea. clear Ea.
      destruct (add_fields (mkT (nrows arr) old) aug) as [u|e] eqn:A; cbn [bind].
      * apply add_fields_ok in A. destruct A as [D' ->]. unfold names in D'. cbn [cols nrows] in *. rewrite L in D'.
        unfold completed. fold old. rewrite <- L, map_map. split; [intros [= <-]; split; [rewrite L; exact D'|reflexivity]|].
        intros [_ ->]. reflexivity.
      * split; [discriminate|]. intros [D' ->]. exfalso. rewrite <- L in D'.
        assert (exists v, add_fields (mkT (nrows arr) old) aug = Ok v) as [v V].
        { eexists. apply add_fields_ok. split; [exact D'|reflexivity]. }
        congruence.
  - split; [discriminate|]. intros [D ->]. exfalso. apply NoDup_app_l in D.
    assert (catalog_init [arr] = Ok (mkT (nrows arr) old)) as V.
    { apply catalog_init_ok; [discriminate|]. exists (nrows arr). split; [repeat constructor|]. split; [exact D|reflexivity]. }
    congruence.
Qed.
Lemma init_err arr dtype config e : clus_init arr dtype config = Err e -> e = ValueError.
Proof.
  unfold clus_init. destruct (catalog_init [arr]) as [t|e'] eqn:E; cbn [bind].
  - destruct (filter _ _) as [|a r]; [cbn [bind]; discriminate|]. destruct (add_fields t (a :: r)) eqn:A; cbn [bind]; [discriminate|].
    apply add_fields_err in A. congruence.
  - apply catalog_init_err in E; [|discriminate]. congruence.
Qed.

Lemma find_map_lower x v (l : list (string * list Z)) : NoDup (map fst l) -> In (x, v) l ->
  find (fun c => String.eqb (fst c) x) l = Some (x, v).
Proof.
  induction l as [|[y w] l IH]; cbn; [tauto|]. intros D [E|I].
  - injection E as -> ->. rewrite String.eqb_refl. reflexivity.
  - inversion D as [|? ? N D']; subst. destruct (String.eqb_spec y x) as [->|n].
    + exfalso. apply N. apply (in_map fst) in I. exact I.
    + apply IH; assumption.
Qed.

Lemma completed_names arr want : names (completed arr want) = map fst (all_columns [arr]) ++ lacking (map fst (all_columns [arr])) want.
Proof. unfold names, completed. cbn [cols]. rewrite map_app, zeros_names. reflexivity. Qed.
Lemma completed_old arr want x v : NoDup (map fst (all_columns [arr])) -> In (x, v) (cols arr) ->
  column (completed arr want) (lower x) = Some v.
Proof.
  intros D I. unfold column, completed. cbn [cols]. rewrite find_app, (find_map_lower (lower x) v); [reflexivity|exact D|].
  rewrite all_one. change (lower x, v) with ((fun c : string * list Z => (lower (fst c), snd c)) (x, v)). apply in_map, I.
Qed.
Lemma completed_new arr want x : In x want -> ~ In (lower x) (map fst (all_columns [arr])) ->
  column (completed arr want) (lower x) = Some (repeat 0%Z (nrows arr)).
Proof.
  intros I N. unfold column, completed. cbn [cols]. rewrite find_app, (find_name_none _ _ N), zeros_column; [reflexivity|].
  apply lacking_In. split; [exact N|apply in_map, I].
Qed.
Lemma completed_lower arr want x : In x (names (completed arr want)) -> lower x = x.
Proof.
  rewrite completed_names, in_app_iff, lacking_In, all_one, map_map. cbn [fst]. intros [I|[_ I]]; apply in_map_iff in I;
    destruct I as (y & <- & _); apply lower_idem.
Qed.
Lemma lowered t : (forall x, In x (names t) -> lower x = x) -> all_columns [t] = cols t.
Proof.
  intros H. rewrite all_one. unfold names in H. induction (cols t) as [|[y v] l IH]; [reflexivity|]. cbn [map fst snd].
  rewrite (H y) by (left; reflexivity). f_equal. apply IH. intros x I. apply H. right. exact I.
Qed.
Lemma completed_same t want : (forall x, In x (names t) -> lower x = x) -> incl (map lower want) (names t) -> completed t want = t.
Proof.
  intros H I. unfold completed. cbv zeta. rewrite (lowered t H), lacking_nil by exact I. cbn [map]. rewrite app_nil_r.
  destruct t; reflexivity.
Qed.
Lemma completed_has arr want : incl (map lower want) (names (completed arr want)).
Proof.
  intros x I. rewrite completed_names, in_app_iff. destruct (in_dec string_dec x (map fst (all_columns [arr]))) as [i|n]; [left; exact i|].
  right. apply lacking_In. split; assumption.
Qed.
Lemma NoDup_app_intro' {A} (l m : list A) : NoDup l -> NoDup m -> (forall x, In x l -> ~ In x m) -> NoDup (l ++ m).
Proof.
  induction l as [|a l IH]; intros D E F; [exact E|]. inversion D; subst. cbn. constructor.
  - rewrite in_app_iff. intros [I|I]; [contradiction|]. exact (F a (or_introl eq_refl) I).
  - apply IH; auto. intros x I. apply F. right. exact I.
Qed.
Lemma NoDup_lacking have want : NoDup have -> NoDup (map lower want) -> NoDup (have ++ lacking have want).
Proof.
  intros A B. apply NoDup_app_intro'; [exact A|unfold lacking; apply NoDup_filter; exact B|]. intros x I J.
  apply lacking_In in J. tauto.
Qed.
Lemma base_nodup : NoDup (map lower base_columns).
Proof. apply nodup_str_iff. vm_compute. reflexivity. Qed.
Lemma config_nodup : NoDup (map lower config_columns).
Proof. apply nodup_str_iff. vm_compute. reflexivity. Qed.
Lemma randoms_nodup : NoDup (map lower randoms_columns).
Proof. apply nodup_str_iff. vm_compute. reflexivity. Qed.

(** tables whose names are in lower case and distinct, with columns of the right length *)
Definition good (t : table) : Prop := wf t /\ forall x, In x (names t) -> lower x = x.
Lemma completed_good arr want : proper arr -> NoDup (map lower want) -> good (completed arr want).
Proof.
  intros [D L] W. split; [|apply completed_lower]. split.
  - change (NoDup (names (completed arr want))). rewrite completed_names. apply NoDup_lacking; assumption.
  - unfold completed. cbn [cols nrows]. apply Forall_app. split.
    + rewrite all_one, Forall_map. exact L.
    + rewrite Forall_map, Forall_forall. intros x _. apply repeat_length.
Qed.
Lemma sel_len {A} (l : list A) idx : (forall j, In j idx -> j < List.length l) -> List.length (np_sel l idx) = List.length idx.
Proof.
  induction idx as [|i r IH]; intros H; [reflexivity|]. cbn [np_sel].
  destruct (nth_error l i) eqn:E; [cbn [List.length]; f_equal; apply IH; intros j J; apply H; right; exact J|].
  apply nth_error_None in E. specialize (H i (or_introl eq_refl)). lia.
Qed.
Lemma take_good t idx u : good t -> take_rows t idx = Ok u -> good u.
Proof.
  intros [[D L] H] T. pose proof (take_rows_ok t idx u (conj D L) T) as (A & B & _ & R). split; [|rewrite B; exact H].
  split; [change (NoDup (names u)); rewrite B; exact D|]. unfold take_rows in T. destruct (forallb _ _); [|discriminate]. injection T as <-.
  cbn [cols nrows]. unfold take_cols. rewrite Forall_map. rewrite Forall_forall in *. intros c I. cbn [snd]. apply sel_len.
  rewrite (L c I). exact R.
Qed.
Lemma good_proper t : good t -> proper t /\ all_columns [t] = cols t.
Proof.
  intros [[D L] H]. pose proof (lowered t H) as E. split; [|exact E]. split; [rewrite E; exact D|exact L].
Qed.

Lemma subset_same c idx : good (cc_tab c) -> incl (map lower (wanted None (cc_config c))) (names (cc_tab c)) ->
  (forall j, In j idx -> j < nrows (cc_tab c)) ->
  exists t, take_rows (cc_tab c) idx = Ok t /\ subset c idx = Ok (mkCC t (cc_config c)) /\ good t /\ names t = names (cc_tab c) /\
    nrows t = List.length idx.
Proof.
  intros G I R. destruct (take_rows_total (cc_tab c) idx R) as [t T]. pose proof (take_good _ _ _ G T) as Gt.
  pose proof (take_rows_ok _ _ _ (proj1 G) T) as (Hn & N & _). exists t. split; [exact T|]. split; [|auto].
  unfold subset. rewrite T. cbn [bind]. apply init_iff. destruct (good_proper t Gt) as [[P1 _] E].
  rewrite E in *. change (map fst (cols t)) with (names t) in *. rewrite lacking_nil by (rewrite N; exact I). rewrite app_nil_r.
  split; [exact P1|]. rewrite completed_same; [reflexivity|apply Gt|rewrite N; exact I].
Qed.
Lemma crop_same c idx : good (cc_tab c) -> incl (map lower base_columns) (names (cc_tab c)) ->
  (forall j, In j idx -> j < nrows (cc_tab c)) ->
  exists t, take_rows (cc_tab c) idx = Ok t /\ crop c idx = Ok (mkCC t None) /\ good t /\ names t = names (cc_tab c) /\
    nrows t = List.length idx.
Proof.
  intros G I R. destruct (subset_same (mkCC (cc_tab c) None) idx G I R) as (t & T & S & A). exists t. split; [exact T|]. split; [|exact A].
  exact S.
Qed.
Lemma nth_pick rows idx k i : nth_error idx k = Some i -> nth_error (pick rows idx) k = Some (nth i rows 0).
Proof. intros H. unfold pick. rewrite nth_error_map, H. reflexivity. Qed.
Lemma subsets_same l : forall c, good (cc_tab c) -> incl (map lower (wanted None (cc_config c))) (names (cc_tab c)) ->
  in_range (nrows (cc_tab c)) l -> forall rows (t0 : table), List.length rows = nrows (cc_tab c) ->
  (forall x k i, nth_error rows k = Some i -> cell (cc_tab c) x k = cell t0 x i) ->
  exists d, subsets c l = Ok d /\ cc_config d = cc_config c /\ names (cc_tab d) = names (cc_tab c) /\ good (cc_tab d) /\
    nrows (cc_tab d) = List.length (fold_left pick l rows) /\
    forall x k i, nth_error (fold_left pick l rows) k = Some i -> cell (cc_tab d) x k = cell t0 x i.
Proof.
  induction l as [|idx l IH]; intros c G I R rows t0 L C.
  - exists c. cbn [subsets fold_left]. repeat split; auto; apply G.
  - destruct R as [R1 R2]. destruct (subset_same c idx G I R1) as (t & T & S & Gt & N & Hn). cbn [subsets fold_left]. rewrite S. cbn [bind].
    pose proof (take_rows_ok _ _ _ (proj1 G) T) as (_ & _ & Cell & _).
    destruct (IH (mkCC t (cc_config c)) Gt) with (rows := pick rows idx) (t0 := t0) as (d & A1 & A2 & A3 & A4 & A5 & A6); cbn [cc_tab cc_config].
    + rewrite N. exact I.
    + rewrite Hn. exact R2.
    + unfold pick. rewrite map_length. symmetry. exact Hn.
    + intros x k i Hk. unfold pick in Hk. rewrite nth_error_map in Hk. destruct (nth_error idx k) as [j|] eqn:J; [|discriminate].
      cbn in Hk. injection Hk as <-. rewrite (Cell k j x J). apply C. apply nth_error_nth'. rewrite L. apply R1.
      eapply nth_error_In. exact J.
    + exists d. split; [exact A1|]. cbn [cc_tab cc_config] in *. rewrite N in A3. auto.
Qed.
