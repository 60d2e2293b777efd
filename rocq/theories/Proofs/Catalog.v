From Coq Require Import String.
From Verif.Base Require Import Py PyLemmas.
From Verif.Model Require Import Catalog.
From Verif.Spec Require Import Catalog.

Lemma mem_str_iff x l : mem_str x l = true <-> In x l.
Proof.
  induction l as [|y t IH]; cbn; [split; [discriminate|tauto]|].
  rewrite orb_true_iff, String.eqb_eq, IH. split; intros [H|H]; auto.
Qed.
Lemma mem_str_false x l : mem_str x l = false <-> ~ In x l.
Proof. rewrite <- mem_str_iff. destruct (mem_str x l); split; congruence. Qed.

Lemma nodup_str_iff l : nodup_str l = true <-> NoDup l.
Proof.
  induction l as [|y t IH]; cbn; [split; [constructor|reflexivity]|].
  rewrite andb_true_iff, negb_true_iff, mem_str_false, IH. split.
  - intros [H1 H2]; constructor; assumption.
  - inversion 1; subst; split; assumption.
Qed.
Lemma nodup_str_false l : nodup_str l = false <-> ~ NoDup l.
Proof. rewrite <- nodup_str_iff. destruct (nodup_str l); split; congruence. Qed.

Definition low (t : table) : table := mkT (nrows t) (map (fun c => (lower (fst c), snd c)) (cols t)).

Lemma lower_array_ok t l : lower_array t = Ok l <-> NoDup (names (low t)) /\ l = low t.
Proof.
  unfold lower_array, names, low. cbn.
  destruct (nodup_str _) eqn:E.
  - apply nodup_str_iff in E. split; [intros [= <-]; auto|intros [_ ->]; reflexivity].
  - apply nodup_str_false in E. split; [discriminate|intros [H _]; contradiction].
Qed.
Lemma lower_array_err t e : lower_array t = Err e -> e = ValueError.
Proof. unfold lower_array. destruct (nodup_str _); congruence. Qed.

Lemma lower_arrays_ok ts ls :
  lower_arrays ts = Ok ls <-> Forall (fun t => NoDup (names (low t))) ts /\ ls = map low ts.
Proof.
  revert ls; induction ts as [|t ts IH]; intros ls; cbn.
  - split; [intros [= <-]; auto|intros [_ ->]; reflexivity].
  - destruct (lower_array t) as [t'|e] eqn:E; cbn.
    + apply lower_array_ok in E. destruct E as [E ->].
      destruct (lower_arrays ts) as [r|e]; cbn.
      * split.
        -- intros [= <-]. destruct (proj1 (IH r) eq_refl) as [H1 ->]. auto.
        -- intros [H1 ->]. inversion H1; subst. f_equal. f_equal.
           assert (Ok r = Ok (map low ts)) as H by (apply IH; auto). congruence.
      * split; [discriminate|]. intros [H1 ->]. inversion H1; subst.
        assert (Err e = Ok (map low ts)) as H by (apply IH; auto). discriminate.
    + split; [discriminate|]. intros [H1 _]. inversion H1; subst.
      assert (lower_array t = Ok (low t)) as H by (apply lower_array_ok; auto). congruence.
Qed.
Lemma lower_arrays_err ts e : lower_arrays ts = Err e -> e = ValueError.
Proof.
  induction ts as [|t ts IH]; cbn; [discriminate|].
  destruct (lower_array t) eqn:E; cbn.
  - destruct (lower_arrays ts); cbn; [discriminate|]. intros [= <-]. apply IH; reflexivity.
  - intros [= <-]. eapply lower_array_err; eauto.
Qed.

Lemma concat_names ts : map fst (List.concat (map cols ts)) = List.concat (map names ts).
Proof. induction ts as [|t ts IH]; cbn; [reflexivity|]. rewrite map_app, IH. reflexivity. Qed.

Lemma merge_dtype_ok size n0 dt rest d :
  merge_dtype size n0 dt rest = Ok d ->
  d = dt ++ List.concat (map names rest) /\ Forall (fun t => nrows t = size) rest.
Proof.
  revert dt; induction rest as [|t rest IH]; intros dt; cbn.
  - intros [= <-]. rewrite app_nil_r. auto.
  - destruct (Nat.eqb_spec (nrows t) size) as [e|n]; cbn; [|discriminate].
    destruct (existsb _ _); [discriminate|]. intros H. apply IH in H. destruct H as [-> H].
    rewrite <- app_assoc. auto.
Qed.

Lemma merge_dtype_complete size n0 dt rest :
  Forall (fun t => nrows t = size) rest ->
  (forall x, In x n0 -> ~ In x (List.concat (map names rest))) ->
  merge_dtype size n0 dt rest = Ok (dt ++ List.concat (map names rest)).
Proof.
  revert dt; induction rest as [|t rest IH]; intros dt Hf Hd; cbn.
  - rewrite app_nil_r; reflexivity.
  - inversion Hf; subst. rewrite Nat.eqb_refl. cbn.
    destruct (existsb (fun x => mem_str x n0) (names t)) eqn:E.
    + apply existsb_exists in E. destruct E as (x & Hx & Hm). apply mem_str_iff in Hm.
      exfalso. apply (Hd x Hm). cbn. apply in_or_app. auto.
    + rewrite IH, <- app_assoc; auto. intros x Hx Hin. apply (Hd x Hx). cbn. apply in_or_app. auto.
Qed.
Lemma merge_dtype_err size n0 dt rest e : merge_dtype size n0 dt rest = Err e -> e = ValueError.
Proof.
  revert dt; induction rest as [|t rest IH]; intros dt; cbn; [discriminate|].
  destruct (Nat.eqb _ _); cbn; [|congruence]. destruct (existsb _ _); [congruence|]. apply IH.
Qed.

Lemma set_col_mid done y w rest v :
  ~ In y (map fst done) -> set_col (done ++ (y, w) :: rest) y v = done ++ (y, v) :: rest.
Proof.
  induction done as [|[a b] done IH]; cbn; intros H.
  - rewrite String.eqb_refl. reflexivity.
  - destruct (String.eqb_spec y a) as [->|n]; [exfalso; apply H; left; reflexivity|].
    rewrite IH; auto.
Qed.

Lemma fill_all done todo m :
  map fst m = map fst todo -> NoDup (map fst (done ++ todo)) ->
  fold_left (fun acc c => set_col acc (fst c) (snd c)) todo (done ++ m) = done ++ todo.
Proof.
  revert done m; induction todo as [|[y v] todo IH]; intros done m Hn Hd.
  - destruct m; [reflexivity|discriminate].
  - destruct m as [|[y' w] m]; [discriminate|]. cbn in Hn. injection Hn as -> Hn.
    cbn [fold_left fst snd]. rewrite map_app in Hd. cbn in Hd.
    rewrite set_col_mid.
    + replace (done ++ (y, v) :: m) with ((done ++ [(y, v)]) ++ m) by (rewrite <- app_assoc; reflexivity).
      rewrite IH; [rewrite <- app_assoc; reflexivity|assumption|].
      rewrite <- app_assoc, map_app. cbn. exact Hd.
    + apply NoDup_remove_2 in Hd. intros Hin; apply Hd, in_or_app; left; exact Hin.
Qed.

Lemma fill_cols_concat ts m :
  fold_left fill_cols ts m =
  fold_left (fun acc c => set_col acc (fst c) (snd c)) (List.concat (map cols ts)) m.
Proof.
  revert m; induction ts as [|t ts IH]; intros m; cbn; [reflexivity|].
  rewrite fold_left_app, IH. reflexivity.
Qed.

Lemma zeros_names n l : map fst (map (fun x : string => (x, repeat 0%Z n)) l) = l.
Proof. rewrite map_map. cbn [fst]. apply map_id. Qed.

Lemma merge_arrays_ok ts t :
  ts <> [] ->
  merge_arrays ts = Ok t <->
  (exists n, Forall (fun t => nrows t = n) ts /\ NoDup (List.concat (map names ts))
             /\ t = mkT n (List.concat (map cols ts))).
Proof.
  destruct ts as [|t0 rest]; [congruence|]. intros _. unfold merge_arrays. split.
  - destruct (merge_dtype _ _ _ _) as [d|] eqn:E; cbn [bind]; [|discriminate].
    apply merge_dtype_ok in E. destruct E as [-> Hf].
    unfold np_zeros. destruct (nodup_str _) eqn:E; cbn [bind]; [|discriminate].
    apply nodup_str_iff in E. intros [= <-]. exists (nrows t0). cbn [cols].
    split; [constructor; auto|]. split; [exact E|]. f_equal.
    change (fold_left fill_cols rest (fill_cols ?m t0)) with (fold_left fill_cols (t0 :: rest) m).
    rewrite fill_cols_concat. apply (fill_all []).
    + rewrite concat_names; exact (zeros_names _ _).
    + cbn [app]; rewrite concat_names; exact E.
  - intros (n & Hf & Hd & ->). inversion Hf as [|? ? H0 Hr]; subst.
    rewrite merge_dtype_complete; auto.
    + cbn [bind]. unfold np_zeros. destruct (nodup_str _) eqn:E.
      * cbn [bind cols]. f_equal. f_equal.
        change (fold_left fill_cols rest (fill_cols ?m t0)) with (fold_left fill_cols (t0 :: rest) m).
        rewrite fill_cols_concat. apply (fill_all []).
        -- rewrite concat_names; exact (zeros_names _ _).
        -- cbn [app]; rewrite concat_names; exact Hd.
      * apply nodup_str_false in E. contradiction.
    + intros x Hx Hin. cbn in Hd. clear -Hd Hx Hin.
      induction (names t0) as [|a l IH]; [contradiction|].
      cbn in Hd. inversion Hd as [|? ? Hn Hd']; subst. destruct Hx as [->|Hx]; [|auto].
      apply Hn, in_or_app; auto.
Qed.
Lemma merge_arrays_err ts e : ts <> [] -> merge_arrays ts = Err e -> e = ValueError.
Proof.
  destruct ts as [|t0 rest]; [congruence|]. intros _. unfold merge_arrays.
  destruct (merge_dtype _ _ _ _) eqn:E; cbn.
  - unfold np_zeros. destruct (nodup_str _); cbn; congruence.
  - intros [= <-]. eapply merge_dtype_err; eauto.
Qed.

Lemma all_columns_low ts : all_columns ts = List.concat (map cols (map low ts)).
Proof. unfold all_columns. rewrite map_map. reflexivity. Qed.

Lemma NoDup_app_l {A} (l1 l2 : list A) : NoDup (l1 ++ l2) -> NoDup l1.
Proof.
  induction l1 as [|x l1 IH]; cbn; [constructor|]. inversion 1; subst.
  constructor; [|auto]. intros Hin; match goal with H : ~ In _ _ |- _ => apply H end.
  apply in_or_app; auto.
Qed.
Lemma NoDup_app_r {A} (l1 l2 : list A) : NoDup (l1 ++ l2) -> NoDup l2.
Proof. induction l1; cbn; [auto|]. inversion 1; auto. Qed.

Lemma NoDup_concat_each {A B} (f : A -> list B) ts :
  NoDup (List.concat (map f ts)) -> Forall (fun t => NoDup (f t)) ts.
Proof.
  induction ts as [|t ts IH]; cbn; [constructor|]. intros H.
  constructor; [eapply NoDup_app_l; eauto|]. apply IH. eapply NoDup_app_r; eauto.
Qed.

Lemma catalog_init_ok ts t :
  ts <> [] ->
  catalog_init ts = Ok t <->
  (exists n, Forall (fun t => nrows t = n) ts /\ NoDup (map fst (all_columns ts))
             /\ t = mkT n (all_columns ts)).
Proof.
  intros Hne. unfold catalog_init. rewrite all_columns_low, concat_names.
  split.
  - destruct (lower_arrays ts) as [ls|] eqn:E; cbn; [|discriminate].
    apply lower_arrays_ok in E. destruct E as [Hd ->].
    destruct ts as [|t0 rest]; [congruence|]. destruct rest as [|t1 rest].
    + cbn. intros [= <-]. exists (nrows t0). rewrite !app_nil_r.
      inversion Hd; subst. auto.
    + cbn [map]. change (low t0 :: low t1 :: map low rest) with (map low (t0 :: t1 :: rest)).
      intros H. apply merge_arrays_ok in H; [|discriminate].
      destruct H as (n & Hf & Hd' & ->). exists n. split; [|auto].
      rewrite Forall_map in Hf. exact Hf.
  - intros (n & Hf & Hd & ->).
    assert (Hl : lower_arrays ts = Ok (map low ts)).
    { apply lower_arrays_ok. split; [|reflexivity]. rewrite map_map in Hd.
      apply NoDup_concat_each in Hd. exact Hd. }
    rewrite Hl. cbn. destruct ts as [|t0 rest]; [congruence|]. destruct rest as [|t1 rest].
    + cbn. rewrite app_nil_r. inversion Hf; subst. reflexivity.
    + cbn [map]. change (low t0 :: low t1 :: map low rest) with (map low (t0 :: t1 :: rest)).
      apply merge_arrays_ok; [discriminate|]. exists n. split; [|auto].
      rewrite Forall_map. exact Hf.
Qed.
Lemma catalog_init_err ts e : ts <> [] -> catalog_init ts = Err e -> e = ValueError.
Proof.
  intros Hne. unfold catalog_init. destruct (lower_arrays ts) as [ls|] eqn:E; cbn.
  - apply lower_arrays_ok in E. destruct E as [_ ->].
    destruct ts as [|t0 [|t1 rest]]; cbn [map]; [congruence|discriminate|].
    apply merge_arrays_err. discriminate.
  - intros [= <-]. eapply lower_arrays_err; eauto.
Qed.

(** ** columns and cells *)
Lemma NoDup_map_inv' {A B} (f : A -> B) l : NoDup (map f l) -> NoDup l.
Proof. apply NoDup_map_inv. Qed.

Lemma add_fields_ok t ns t' :
  add_fields t ns = Ok t' <->
  NoDup (names t ++ map lower ns) /\
  t' = mkT (nrows t) (cols t ++ map (fun x => (lower x, repeat 0%Z (nrows t))) ns).
Proof.
  unfold add_fields, np_zeros. destruct (nodup_str ns) eqn:E; cbn [bind].
  - unfold lower_array. cbn [cols nrows]. rewrite !map_map. cbn [fst snd].
    destruct (nodup_str (map (fun x => lower x) ns)) eqn:E2; cbn [bind].
    + rewrite merge_arrays_ok by discriminate. cbn [map List.concat cols].
      unfold names at 2. cbn [cols]. rewrite !app_nil_r, map_map. cbn [fst]. split.
      * intros (n & Hf & Hd & ->). inversion Hf; subst. split; [exact Hd|]. reflexivity.
      * intros (Hd & ->). exists (nrows t). repeat split; auto.
    + split; [discriminate|]. intros [H _]. apply NoDup_app_r in H.
      apply nodup_str_false in E2. contradiction.
  - split; [discriminate|]. intros [H _]. apply NoDup_app_r, NoDup_map_inv' in H.
    apply nodup_str_false in E. contradiction.
Qed.
Lemma add_fields_err t ns e : add_fields t ns = Err e -> e = ValueError.
Proof.
  unfold add_fields, np_zeros. destruct (nodup_str ns); cbn [bind]; [|congruence].
  unfold lower_array. destruct (nodup_str _); cbn [bind]; [|congruence].
  apply merge_arrays_err. discriminate.
Qed.

Lemma find_app {A} (p : A -> bool) l1 l2 :
  find p (l1 ++ l2) = match find p l1 with Some x => Some x | None => find p l2 end.
Proof. induction l1 as [|a l1 IH]; cbn; [reflexivity|]. destruct (p a); auto. Qed.

Lemma find_name_some (l : list (string * list Z)) x :
  In x (map fst l) -> exists c, find (fun c => String.eqb (fst c) x) l = Some c.
Proof.
  induction l as [|[y v] l IH]; cbn; [tauto|]. intros [->|H].
  - rewrite String.eqb_refl. eexists; reflexivity.
  - destruct (String.eqb y x); [eexists; reflexivity|auto].
Qed.
Lemma find_name_none (l : list (string * list Z)) x :
  ~ In x (map fst l) -> find (fun c => String.eqb (fst c) x) l = None.
Proof.
  induction l as [|[y v] l IH]; cbn; intros H; [reflexivity|].
  destruct (String.eqb_spec y x) as [->|n]; [exfalso; auto|auto].
Qed.

Lemma NoDup_app_disj {A} (l1 l2 : list A) x : NoDup (l1 ++ l2) -> In x l1 -> ~ In x l2.
Proof.
  induction l1 as [|a l1 IH]; cbn; [tauto|]. inversion 1; subst. intros [->|Hx] Hin; [|firstorder].
  match goal with H : ~ In _ _ |- _ => apply H end. apply in_or_app; auto.
Qed.

Lemma add_fields_preserves t ns t' :
  add_fields t ns = Ok t' ->
  nrows t' = nrows t /\
  (forall x i, In x (names t) -> cell t' x i = cell t x i) /\
  (forall x i, In x ns -> i < nrows t -> cell t' (lower x) i = Some 0%Z) /\
  names t' = names t ++ map lower ns.
Proof.
  intros H. apply add_fields_ok in H. destruct H as [Hd ->]. cbn [nrows].
  split; [reflexivity|]. split; [|split].
  - intros x i Hx. unfold cell. cbn [cols]. rewrite find_app.
    destruct (find_name_some _ _ Hx) as [c ->]. reflexivity.
  - intros x i Hx Hi. unfold cell. cbn [cols]. rewrite find_app.
    rewrite find_name_none.
    + assert (Hl : In (lower x) (map fst (map (fun y => (lower y, repeat 0%Z (nrows t))) ns))).
      { rewrite map_map. cbn [fst]. apply (in_map lower). exact Hx. }
      destruct (find_name_some _ _ Hl) as [c Hc]. rewrite Hc.
      apply find_some in Hc. destruct Hc as [Hc _]. apply in_map_iff in Hc.
      destruct Hc as (y & <- & _). cbn [snd]. rewrite nth_error_repeat; [reflexivity|exact Hi].
    + intros Hin. apply (NoDup_app_disj _ _ _ Hd Hin). apply in_map; exact Hx.
  - unfold names. cbn [cols]. rewrite map_app, map_map. reflexivity.
Qed.

Lemma add_fields_rejects t ns x :
  In x ns -> In (lower x) (names t) -> add_fields t ns = Err ValueError.
Proof.
  intros Hx Hin. destruct (add_fields t ns) as [t'|e] eqn:E.
  - apply add_fields_ok in E. destruct E as [Hd _].
    exfalso. apply (NoDup_app_disj _ _ _ Hd Hin). apply in_map; exact Hx.
  - apply add_fields_err in E. subst. reflexivity.
Qed.

(** ** rows *)
Lemma cell_take t idx k i x :
  wf t -> (forall j, In j idx -> j < nrows t) -> nth_error idx k = Some i ->
  cell (mkT (List.length idx) (take_cols (cols t) idx)) x k = cell t x i.
Proof.
  intros [_ Hw] Hr Hk. unfold cell. cbn [cols]. unfold take_cols.
  induction (cols t) as [|[y v] l IH]; cbn; [reflexivity|].
  inversion Hw as [|? ? Hv Hl]; subst. cbn [snd fst] in *.
  destruct (String.eqb y x).
  - cbn. rewrite np_sel_nth by (intros j Hj; rewrite Hv; auto). rewrite Hk. reflexivity.
  - apply IH; exact Hl.
Qed.

Lemma take_rows_ok t idx u :
  wf t -> take_rows t idx = Ok u ->
  nrows u = List.length idx /\ names u = names t /\
  (forall k i x, nth_error idx k = Some i -> cell u x k = cell t x i) /\
  (forall j, In j idx -> j < nrows t).
Proof.
  intros Hw. unfold take_rows. destruct (forallb _ _) eqn:E; [|discriminate].
  intros [= <-]. rewrite forallb_forall in E.
  assert (Hr : forall j, In j idx -> j < nrows t) by (intros j Hj; apply Nat.ltb_lt; auto).
  split; [reflexivity|]. split; [unfold names; cbn; unfold take_cols; rewrite map_map; reflexivity|].
  split; [|exact Hr]. intros; apply cell_take; assumption.
Qed.
Lemma take_rows_total t idx :
  (forall j, In j idx -> j < nrows t) -> exists u, take_rows t idx = Ok u.
Proof.
  intros H. unfold take_rows. rewrite (proj2 (forallb_forall _ _)); [eexists; reflexivity|].
  intros j Hj. apply Nat.ltb_lt; auto.
Qed.

Lemma to_fits_file_partial t idx u :
  wf t -> nrows t <> 1 -> to_fits_file t (Some idx) = Ok u ->
  nrows u = List.length idx /\ names u = names t /\
  (forall k i x, nth_error idx k = Some i -> cell u x k = cell t x i).
Proof.
  intros Hw Hn. unfold to_fits_file. destruct (Nat.eqb_spec (nrows t) 1) as [e|_]; [congruence|].
  intros H. apply take_rows_ok in H; [|exact Hw]. intuition.
Qed.

(** ** growth *)
Lemma strs_eqb_iff a b : strs_eqb a b = true <-> a = b.
Proof.
  revert b; induction a as [|x a IH]; intros [|y b]; cbn; try (split; congruence).
  rewrite andb_true_iff, String.eqb_eq, IH. split; [intros [-> ->]; reflexivity|intros [= -> ->]; auto].
Qed.


Lemma app_cols_names a b : map fst a = map fst b -> map fst (app_cols a b) = map fst a.
Proof.
  revert b; induction a as [|[x v] a IH]; intros [|[y w] b]; cbn; try congruence.
  intros [= -> H]. unfold app_cols in IH. rewrite IH; auto.
Qed.

Lemma app_cols_find a b x :
  map fst a = map fst b ->
  find (fun c => String.eqb (fst c) x) (app_cols a b) =
  match find (fun c => String.eqb (fst c) x) a, find (fun c => String.eqb (fst c) x) b with
  | Some c, Some d => Some (fst c, snd c ++ snd d)
  | _, _ => None
  end.
Proof.
  revert b; induction a as [|[y v] a IH]; intros [|[z w] b]; cbn; try congruence.
  intros [= -> H]. destruct (String.eqb z x); [reflexivity|]. apply IH; exact H.
Qed.

Lemma append_ok t u r :
  append t u = Ok r ->
  names t = names u /\ nrows r = nrows t + nrows u /\ names r = names t /\
  (forall x, column r x = match column t x, column u x with
                          | Some a, Some b => Some (a ++ b) | _, _ => None end).
Proof.
  unfold append. destruct (strs_eqb _ _) eqn:E; [|discriminate]. apply strs_eqb_iff in E.
  intros [= <-]. split; [exact E|]. split; [reflexivity|]. split.
  - unfold names; cbn. apply app_cols_names. exact E.
  - intros x. unfold column; cbn. rewrite app_cols_find by exact E.
    destruct (find _ (cols t)); [|reflexivity]. destruct (find _ (cols u)); reflexivity.
Qed.

Lemma zeros_column n l x :
  In x l -> find (fun c => String.eqb (fst c) x) (map (fun y => (y, repeat 0%Z n)) l)
            = Some (x, repeat 0%Z n).
Proof.
  induction l as [|y l IH]; cbn; [tauto|]. destruct (String.eqb_spec y x) as [->|ne]; [reflexivity|].
  intros [->|H]; [congruence|auto].
Qed.
Lemma extend_ok t n r :
  extend t n = Ok r ->
  nrows r = nrows t + n /\ names r = names t /\
  (forall x, column r x = match column t x with Some a => Some (a ++ repeat 0%Z n) | None => None end).
Proof.
  unfold extend, np_zeros. destruct (nodup_str (names t)); cbn [bind]; [|discriminate].
  intros H. apply append_ok in H. destruct H as (H1 & H2 & H3 & H4).
  split; [exact H2|]. split; [exact H3|]. intros x. rewrite H4.
  unfold column. cbn [cols]. destruct (find _ (cols t)) as [c|] eqn:E; [|reflexivity].
  apply find_some in E. destruct E as [E1 E2]. apply String.eqb_eq in E2.
  rewrite zeros_column; [reflexivity|]. subst x. unfold names. apply in_map. exact E1.
Qed.


Lemma grow_step_ok t g r :
  grow_step t g = Ok r ->
  nrows r = nrows t + piece_rows g /\ names r = names t /\
  (forall x v, column t x = Some v -> column r x = Some (v ++ piece x g)).
Proof.
  destruct g as [u|n]; cbn.
  - intros H. apply append_ok in H. destruct H as (H0 & H1 & H2 & H3).
    split; [exact H1|]. split; [exact H2|]. intros x v Hv. rewrite H3, Hv.
    destruct (column u x) eqn:E; [reflexivity|].
    exfalso. unfold column in Hv, E. destruct (find _ (cols t)) as [c|] eqn:Ec; [|discriminate].
    apply find_some in Ec. destruct Ec as [Ec Eq]. apply String.eqb_eq in Eq. subst x.
    assert (Hin : In (fst c) (map fst (cols u))) by (unfold names in H0; rewrite <- H0; apply in_map; exact Ec).
    destruct (find_name_some _ _ Hin) as [d Hd]. rewrite Hd in E. discriminate.
  - intros H. apply extend_ok in H. destruct H as (H1 & H2 & H3).
    split; [exact H1|]. split; [exact H2|]. intros x v Hv. rewrite H3, Hv. reflexivity.
Qed.

Lemma grow_run_ok t gs r :
  grow_run t gs = Ok r ->
  nrows r = nrows t + list_sum (map piece_rows gs) /\ names r = names t /\
  (forall x v, column t x = Some v -> column r x = Some (v ++ List.concat (map (piece x) gs))).
Proof.
  revert t; induction gs as [|g gs IH]; intros t; cbn.
  - intros [= <-]. rewrite Nat.add_0_r. repeat split; auto. intros x v Hv. rewrite app_nil_r. exact Hv.
  - destruct (grow_step t g) as [t'|] eqn:E; cbn; [|discriminate]. intros H.
    apply grow_step_ok in E. destruct E as (E1 & E2 & E3).
    apply IH in H. destruct H as (H1 & H2 & H3).
    split; [rewrite H1, E1; unfold list_sum; cbn; lia|]. split; [congruence|].
    intros x v Hv. rewrite (H3 _ _ (E3 _ _ Hv)), app_assoc. reflexivity.
Qed.

(** ** attribute access *)
Lemma get_attr_column t a : get_attr t a = column t (lower a).
Proof.
  unfold get_attr, column. induction (cols t) as [|[y v] l IH]; cbn; [reflexivity|].
  rewrite String.eqb_sym. destruct (String.eqb y (lower a)); [reflexivity|exact IH].
Qed.

Lemma set_col_find_other l x v y :
  x <> y -> find (fun c => String.eqb (fst c) y) (set_col l x v) = find (fun c => String.eqb (fst c) y) l.
Proof.
  intros Hn. induction l as [|[a b] l IH]; cbn; [reflexivity|].
  destruct (String.eqb_spec x a) as [->|n]; cbn.
  - destruct (String.eqb_spec a y) as [->|_]; [congruence|reflexivity].
  - destruct (String.eqb a y); [reflexivity|exact IH].
Qed.
Lemma set_col_find_same l x v :
  In x (map fst l) -> find (fun c => String.eqb (fst c) x) (set_col l x v) = Some (x, v).
Proof.
  induction l as [|[a b] l IH]; cbn; [tauto|].
  destruct (String.eqb_spec x a) as [->|n]; cbn.
  - rewrite String.eqb_refl. reflexivity.
  - intros [->|H]; [congruence|]. destruct (String.eqb_spec a x) as [->|_]; [congruence|auto].
Qed.
Lemma set_col_names l x v : map fst (set_col l x v) = map fst l.
Proof.
  induction l as [|[a b] l IH]; cbn; [reflexivity|].
  destruct (String.eqb x a); cbn; [reflexivity|]. rewrite IH; reflexivity.
Qed.

Lemma set_attr_ok t a v t' :
  set_attr t a v = Ok (Some t') ->
  nrows t' = nrows t /\ names t' = names t /\ In (lower a) (names t) /\
  (forall y, y <> lower a -> column t' y = column t y) /\
  column t' (lower a) = Some (match v with
     | Scalar z => repeat z (nrows t)
     | Seq l => match l with [z] => repeat z (nrows t) | _ => l end end) /\
  (match v with Seq l => List.length l = nrows t \/ List.length l = 1 | _ => True end).
Proof.
  unfold set_attr. destruct (mem_str _ _) eqn:E; [|discriminate]. apply mem_str_iff in E.
  intros H.
  assert (exists w, t' = mkT (nrows t) (set_col (cols t) (lower a) w) /\
     w = (match v with
     | Scalar z => repeat z (nrows t)
     | Seq l => match l with [z] => repeat z (nrows t) | _ => l end end) /\
     (match v with Seq l => List.length l = nrows t \/ List.length l = 1 | _ => True end))
    as (w & -> & -> & Hl).
  { destruct v as [z|l]; cbn in H.
    - injection H as <-. eexists; split; [reflexivity|auto].
    - destruct l as [|z [|z' l]]; cbn in H.
      + destruct (nrows t) eqn:En; cbn in H; [|discriminate].
        injection H as <-. eexists; split; [reflexivity|auto].
      + injection H as <-. eexists; split; [reflexivity|auto].
      + destruct (nrows t) as [|[|n]] eqn:En; try discriminate.
        destruct (Nat.eqb_spec (List.length l) n) as [e|ne]; cbn in H; [|discriminate].
        injection H as <-. eexists; split; [reflexivity|]. split; [reflexivity|]. left. cbn. lia. }
  cbn [nrows]. split; [reflexivity|]. split; [apply set_col_names|]. split; [exact E|].
  split; [|split; [|exact Hl]].
  - intros y Hy. unfold column. cbn [cols]. rewrite set_col_find_other; auto.
  - unfold column. cbn [cols]. rewrite set_col_find_same; auto.
Qed.

Lemma strs_eqb_refl l : strs_eqb l l = true.
Proof. induction l; cbn; [reflexivity|]. rewrite String.eqb_refl, IHl. reflexivity. Qed.
Lemma grow_step_total t g : NoDup (names t) -> (forall u, g = GAppend u -> names u = names t) ->
  exists r, grow_step t g = Ok r /\ names r = names t.
Proof.
  intros Hn Hu. destruct g as [u|n]; cbn.
  - unfold append. rewrite (Hu u eq_refl), strs_eqb_refl. eexists; split; [reflexivity|].
    apply app_cols_names. symmetry. apply (Hu u eq_refl).
  - unfold extend, np_zeros. rewrite (proj2 (nodup_str_iff _) Hn). cbn [bind].
    unfold append. cbn. unfold names at 2. cbn [cols]. rewrite zeros_names, strs_eqb_refl. eexists; split; [reflexivity|].
    apply app_cols_names. cbn. rewrite zeros_names. reflexivity.
Qed.
Lemma grow_run_total t gs : NoDup (names t) -> (forall u, In (GAppend u) gs -> names u = names t) -> exists r, grow_run t gs = Ok r.
Proof.
  revert t; induction gs as [|g gs IH]; intros t Hn Hu; cbn; [eauto|].
  destruct (grow_step_total t g Hn) as (r & E & Hr); [intros u ->; apply Hu; left; reflexivity|].
  rewrite E. cbn. apply IH; rewrite Hr; [exact Hn|]. intros u Hi. apply Hu. right. exact Hi.
Qed.
Lemma to_fits_file_total t idx : (forall j, In j idx -> j < nrows t) -> exists u, to_fits_file t (Some idx) = Ok u.
Proof. intros H. unfold to_fits_file. destruct (Nat.eqb (nrows t) 1); [eauto|]. apply take_rows_total, H. Qed.
Lemma entry_iff t u : entry_init t = Ok u <->
  nrows t = 1 /\ NoDup (map fst (all_columns [t])) /\ u = mkT 1 (all_columns [t]).
Proof.
  unfold entry_init. destruct (Nat.eqb_spec (nrows t) 1) as [H|H]; cbn [negb].
  - rewrite catalog_init_ok by discriminate. split.
    + intros (n & A & B & C). inversion A; subst. repeat split; auto. congruence.
    + intros (A & B & C). exists 1. repeat split; auto.
  - split; [discriminate|]. intros (A & _); congruence.
Qed.
Lemma set_attr_total t a v : In (lower a) (names t) ->
  match v with Seq l => List.length l = nrows t | Scalar _ => True end -> exists t', set_attr t a v = Ok (Some t').
Proof.
  intros Ha Hv. unfold set_attr. rewrite (proj2 (mem_str_iff _ _) Ha).
  destruct v as [z|l]; cbn [bind]; [eauto|].
  destruct l as [|x [|y l]]; cbn [bind]; [|eauto|].
  - cbn in Hv. rewrite <- Hv. cbn. eauto.
  - rewrite Hv, Nat.eqb_refl. cbn. eauto.
Qed.
