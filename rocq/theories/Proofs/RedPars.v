(** Proofs about the row of parameters. *)
From Coq Require Import QArith Ascii String Sorting.Sorted.
From Verif.Base Require Import Py PyLemmas.
From Verif.Model Require Import Names Util Galfile RedPars.
From Verif.Spec Require Import Util RedPars.
From Verif.Proofs Require Import Ingest RunAll.
From Coq Require Import Lia List. Import ListNotations.
Local Open Scope nat_scope.
Local Open Scope list_scope.

Lemma same_iff a b : same a b = true <-> a = b.
Proof. unfold same. destruct (list_eq_dec ascii_dec a b); split; congruence. Qed.
Lemma same_no a b : a <> b -> same a b = false.
Proof. unfold same. destruct (list_eq_dec ascii_dec a b); congruence. Qed.
Lemma same_refl a : same a a = true.
Proof. apply same_iff. reflexivity. Qed.
Lemma distinct_iff l : distinct l = true <-> NoDup l.
Proof.
  induction l as [|a l IH]; [split; [constructor|reflexivity]|]. cbn [distinct]. rewrite andb_true_iff, negb_true_iff, IH. split.
  - intros (E & N). constructor; [|exact N]. intros I. assert (X : existsb (same a) l = true) by (apply existsb_exists; exists a; split; [exact I|apply same_refl]). congruence.
  - intros N. inversion N as [|x y N1 N2]; subst. split; [|exact N2]. destruct (existsb (same a) l) eqn:E; [|reflexivity]. apply existsb_exists in E. destruct E as (b & I & E).
    apply same_iff in E. subst b. contradiction.
Qed.
Lemma get_zeros cols n sh : NoDup (map fst cols) -> In (n, sh) cols -> get (map (fun c => (fst c, (snd c, repeat 0%Q (prod (snd c))))) cols) n = Some (sh, repeat 0%Q (prod sh)).
Proof.
  induction cols as [|[m x] cols IH]; intros N I; [destruct I|]. cbn [map get fst snd]. inversion N as [|u w N1 N2]; subst. destruct I as [I|I].
  - injection I as -> ->. rewrite same_refl. reflexivity.
  - rewrite same_no; [apply IH; assumption|]. intros ->. apply N1. apply in_map_iff. exists (m, sh). auto.
Qed.
Lemma put_ok r n v sh old : get r n = Some (sh, old) -> List.length v = List.length old ->
  exists r', put r n v = Ok r' /\ get r' n = Some (sh, v) /\ (forall m, m <> n -> get r' m = get r m) /\ map fst r' = map fst r.
Proof.
  induction r as [|[m [s o]] r IH]; intros G L; [discriminate|]. cbn [get put] in *. destruct (same n m) eqn:E.
  - injection G as -> ->. rewrite L, Nat.eqb_refl. eexists. split; [reflexivity|]. cbn [get]. rewrite E. split; [reflexivity|]. split; [|reflexivity].
    intros k K. cbn [get]. apply same_iff in E. subst m. rewrite same_no by exact K. reflexivity.
  - destruct (IH G L) as (r' & E1 & E2 & E3 & E4). rewrite E1. cbn [bind]. eexists. split; [reflexivity|]. cbn [get map fst]. rewrite E. split; [exact E2|]. split; [|rewrite E4; reflexivity].
    intros k K. rewrite E3 by exact K. reflexivity.
Qed.
Lemma fill_ok l : forall r, NoDup (map fst l) -> (forall n v, In (n, v) l -> exists sh old, get r n = Some (sh, old) /\ List.length v = List.length old) ->
  exists r', fill r l = Ok r' /\ (forall n v sh old, In (n, v) l -> get r n = Some (sh, old) -> get r' n = Some (sh, v)) /\
    (forall n, ~ In n (map fst l) -> get r' n = get r n) /\ map fst r' = map fst r.
Proof.
  induction l as [|[n v] l IH]; intros r N H.
  - exists r. split; [reflexivity|]. split; [intros n v sh old []|]. auto.
  - inversion N as [|x y N1 N2]; subst. destruct (H n v (or_introl eq_refl)) as (sh & old & G & L). destruct (put_ok r n v sh old G L) as (r1 & E1 & E2 & E3 & E4).
    assert (D : forall m w, In (m, w) l -> m <> n). { intros m w I ->. apply N1. apply in_map_iff. exists (n, w). auto. }
    destruct (IH r1 N2) as (r' & F1 & F2 & F3 & F4).
    { intros m w I. rewrite E3 by (apply (D m w I)). apply H. right. exact I. }
    exists r'. cbn [fill]. rewrite E1. cbn [bind]. split; [exact F1|]. split; [|split].
    + intros m w s o [I|I] Gm.
      * injection I as -> ->. rewrite F3 by exact N1. rewrite G in Gm. injection Gm as -> ->. exact E2.
      * apply (F2 m w s o I). rewrite E3 by (apply (D m w I)). exact Gm.
    + intros m I. rewrite F3 by (intros J; apply I; right; exact J). apply E3. intros ->. apply I. left. reflexivity.
    + congruence.
Qed.

(** names *)
Definition base (s : str) : str := rev (drop_while is_digit (rev s)).
Lemma drop_digits d t : forallb is_digit d = true -> drop_while is_digit (d ++ t) = drop_while is_digit t.
Proof. induction d as [|x d IH]; intros H; [reflexivity|]. cbn in H. apply andb_prop in H. destruct H as (A & B). cbn [app drop_while]. rewrite A. apply IH, B. Qed.
Lemma base_tag t d : forallb is_digit d = true -> base (t ++ d) = base t.
Proof. intros H. unfold base. rewrite rev_app_distr, drop_digits; [reflexivity|]. apply forallb_forall. intros x I. apply in_rev in I. rewrite forallb_forall in H. apply H, I. Qed.
Definition kinds : list str := [s_ "z"; s_ "c"; s_ "zs"; s_ "slope"].
Lemma tag_base k j : In k kinds -> base (k ++ fmt 2 (Z.of_nat j)) = k.
Proof. intros I. rewrite base_tag by (apply fmt_digits; lia). destruct I as [<-|[<-|[<-|[<-|[]]]]]; reflexivity. Qed.
Lemma tag_inj k k' j j' : In k kinds -> In k' kinds -> k ++ fmt 2 (Z.of_nat j) = k' ++ fmt 2 (Z.of_nat j') -> k = k' /\ j = j'.
Proof.
  intros I I' E. assert (k = k') as <-. { rewrite <- (tag_base k j I), <- (tag_base k' j' I'), E. reflexivity. }
  split; [reflexivity|]. apply app_inv_head in E. apply fmt_inj in E; lia.
Qed.
Lemma fixed_base nmag n x : In x (map fst (fixed_columns nmag n)) -> ~ In (base x) kinds.
Proof.
  intros I. assert (B : existsb (fun k => existsb (same k) (map base (map fst (fixed_columns nmag n)))) kinds = false) by (vm_compute; reflexivity).
  intros J. assert (T : existsb (fun k => existsb (same k) (map base (map fst (fixed_columns nmag n)))) kinds = true).
  { apply existsb_exists. exists (base x). split; [exact J|]. apply existsb_exists. exists (base x). split; [apply in_map, I|apply same_refl]. }
  congruence.
Qed.
Lemma fixed_nodup nmag n : NoDup (map fst (fixed_columns nmag n)).
Proof. apply distinct_iff. vm_compute. reflexivity. Qed.
Lemma numbered_nth {A} (l : list A) j a : In (j, a) (numbered l) <-> nth_error l j = Some a.
Proof.
  unfold numbered. assert (X : forall (l : list A) k j a, In (j, a) (combine (seq k (List.length l)) l) <-> k <= j /\ nth_error l (j - k) = Some a).
  { clear. induction l as [|x l IH]; intros k j a; [cbn; split; [tauto|intros (_ & E); destruct (j - k); discriminate]|]. cbn [List.length seq combine In]. rewrite IH. split.
    - intros [E|(L & E)]; [injection E as -> ->; rewrite Nat.sub_diag; auto|]. split; [lia|]. replace (j - k) with (S (j - S k)) by lia. exact E.
    - intros (L & E). destruct (Nat.eq_dec j k) as [->|D]; [left; rewrite Nat.sub_diag in E; cbn in E; congruence|right]. split; [lia|]. replace (j - k) with (S (j - S k)) in E by lia. exact E. }
  rewrite X, Nat.sub_0_r. split; [tauto|]. intros E. split; [lia|exact E].
Qed.
Lemma flat_nodup {A B} (f : A -> list B) (g : B -> A -> Prop) l : (forall a, In a l -> NoDup (f a)) -> NoDup l ->
  (forall a a' x, In a l -> In a' l -> In x (f a) -> In x (f a') -> a = a') -> NoDup (flat_map f l).
Proof.
  induction l as [|a l IH]; intros H N D; [constructor|]. cbn [flat_map]. inversion N as [|x y N1 N2]; subst.
  assert (Y : NoDup (flat_map f l)). { apply IH; [intros b I; apply H; right; exact I|exact N2|]. intros b b' x I I'. apply D; right; assumption. }
  assert (Z0 : forall x, In x (f a) -> ~ In x (flat_map f l)).
  { intros x I J. apply in_flat_map in J. destruct J as (b & Ib & J). apply N1. rewrite (D a b x (or_introl eq_refl) (or_intror Ib) I J). exact Ib. }
  pose proof (H a (or_introl eq_refl)) as X. revert X Z0. generalize (f a). induction l0 as [|x l0 IHl]; intros X Z0; [exact Y|]. cbn [app]. inversion X as [|u w X1 X2]; subst.
  constructor; [|apply IHl; [exact X2|intros u I; apply Z0; right; exact I]]. rewrite in_app_iff. intros [I|I]; [contradiction|]. apply (Z0 x (or_introl eq_refl) I).
Qed.
Definition tags (j : nat) : list str := map (fun k => k ++ fmt 2 (Z.of_nat j)) kinds.
Lemma tags_nodup j : NoDup (tags j).
Proof.
  unfold tags. assert (N : NoDup kinds) by (apply distinct_iff; reflexivity). revert N. assert (S0 : forall k, In k kinds -> In k kinds) by auto. revert S0. generalize kinds at 1 3 4. 
  induction l as [|k l IH]; intros S0 N; [constructor|]. inversion N as [|x y N1 N2]; subst. cbn [map]. constructor; [|apply IH; [intros k' I; apply S0; right; exact I|exact N2]].
  intros I. apply in_map_iff in I. destruct I as (k' & E & I). apply tag_inj in E; [|apply S0; right; exact I|apply S0; left; reflexivity]. destruct E as (-> & _). contradiction.
Qed.
Lemma seq_nodup_tags n : NoDup (flat_map tags (seq 0 n)).
Proof.
  apply flat_nodup; [exact (fun _ _ => True)|intros; apply tags_nodup|apply seq_NoDup|]. intros a a' x _ _ I I'. unfold tags in *. apply in_map_iff in I, I'.
  destruct I as (k & E & I), I' as (k' & E' & I'). rewrite <- E' in E. apply tag_inj in E; tauto.
Qed.
Lemma color_names (l : list (list Q * list Q)) : map fst (flat_map (fun ja => color_columns (fst ja) (snd ja)) (numbered l)) = flat_map tags (seq 0 (List.length l)).
Proof.
  unfold numbered. generalize 0 as k. induction l as [|a l IH]; intros k; [reflexivity|]. cbn [List.length seq combine flat_map]. rewrite map_app, IH. reflexivity.
Qed.
Lemma columns_nodup nmag n : NoDup (map fst (columns nmag n)).
Proof.
  unfold columns. rewrite map_app, color_names.
  assert (D : forall x, In x (map fst (fixed_columns nmag n)) -> ~ In x (flat_map tags (seq 0 (List.length (n_colors n))))).
  { intros x I J. apply in_flat_map in J. destruct J as (j & _ & J). unfold tags in J. apply in_map_iff in J. destruct J as (k & E & J). apply (fixed_base nmag n x I). rewrite <- E, tag_base by exact J. exact J. }
  pose proof (fixed_nodup nmag n) as X. pose proof (seq_nodup_tags (List.length (n_colors n))) as Y. revert X D. generalize (map fst (fixed_columns nmag n)).
  induction l as [|x l IH]; intros X D; [exact Y|]. inversion X as [|u w X1 X2]; subst. cbn [app]. constructor; [|apply IH; [exact X2|intros u I; apply D; right; exact I]].
  rewrite in_app_iff. intros [I|I]; [contradiction|]. apply (D x (or_introl eq_refl) I).
Qed.

(** the columns filled at the start *)
Lemma start_in c n name v : In (name, v) (starting_values c n) -> exists sh, In (name, sh) (columns (s_nmag c) n) /\ List.length v = prod sh.
Proof.
  unfold starting_values. rewrite in_app_iff. intros [I|I].
  - assert (X : forall x m k, In (x, [m]) (fixed_columns (s_nmag c) n) -> m = k -> exists sh, In (x, sh) (columns (s_nmag c) n) /\ k = prod sh).
    { intros x m k J ->. exists [k]. split; [apply in_or_app; left; exact J|cbn; lia]. }
    cbn [In] in I. destruct I as [I|[I|[I|[I|[I|[I|[]]]]]]]; injection I as <- <-; try (eapply X; [|reflexivity]; unfold fixed_columns; cbn [In]; tauto).
    exists []. split; [apply in_or_app; left; unfold fixed_columns; cbn [In]; tauto|reflexivity].
  - apply in_flat_map in I. destruct I as ([j [a b]] & J & I). cbn [fst snd In] in I.
    assert (K : forall x y, In (x, y) (color_columns j (a, b)) -> In (x, y) (columns (s_nmag c) n)).
    { intros x y K. apply in_or_app. right. apply in_flat_map. exists (j, (a, b)). auto. }
    destruct I as [I|[I|[]]]; injection I as <- <-.
    + exists [List.length a]. split; [apply K; cbn; tauto|cbn; lia].
    + exists [List.length b]. split; [apply K; cbn; tauto|cbn; lia].
Qed.
Lemma start_names c n : NoDup (map fst (starting_values c n)).
Proof.
  unfold starting_values. rewrite map_app.
  assert (E : forall k l, map fst (flat_map (fun ja : nat * (list Q * list Q) => [(ztag (fst ja), fst (snd ja)); (zstag (fst ja), snd (snd ja))]) (combine (seq k (List.length l)) l)) =
              flat_map (fun j => [ztag j; zstag j]) (seq k (List.length l))).
  { intros k l. revert k. induction l as [|a l IH]; intros k; [reflexivity|]. cbn [List.length seq combine flat_map]. rewrite map_app, IH. reflexivity. }
  unfold numbered. rewrite E.
  assert (I2 : forall j x, In x [ztag j; zstag j] -> In x (tags j)) by (intros j x; unfold tags, kinds, ztag, zstag; cbn [map In]; tauto).
  assert (Y : NoDup (flat_map (fun j => [ztag j; zstag j]) (seq 0 (List.length (n_colors n))))).
  { apply flat_nodup; [exact (fun _ _ => True)| |apply seq_NoDup|].
    - intros j _. constructor; [|constructor; [tauto|constructor]]. intros [I|[]]. unfold ztag, zstag in I. apply tag_inj in I; [destruct I; discriminate|cbn; tauto|cbn; tauto].
    - intros a a' x _ _ I I'. apply I2 in I, I'. unfold tags in *. apply in_map_iff in I, I'. destruct I as (k & E1 & I), I' as (k' & E2 & I'). rewrite <- E2 in E1. apply tag_inj in E1; tauto. }
  set (six := [(s_ "pivotmag_z", n_pivot n); (s_ "covmat_z", n_cov n); (s_ "corr_z", n_corr n); (s_ "corr_slope_z", n_corrslope n); (s_ "volume_factor_z", n_vol n); (s_ "mag_err_ratio_pivot", [s_errpivot c])]).
  assert (X : NoDup (map fst six)) by (apply distinct_iff; vm_compute; reflexivity).
  assert (D : forall x, In x (map fst six) -> ~ In x (flat_map (fun j => [ztag j; zstag j]) (seq 0 (List.length (n_colors n))))).
  { intros x I J. apply in_flat_map in J. destruct J as (j & _ & J). apply I2 in J. unfold tags in J. apply in_map_iff in J. destruct J as (k & E1 & J).
    apply (fixed_base 0 n x); [|rewrite <- E1, tag_base by exact J; exact J]. unfold six in I. cbn [map fst In] in I. unfold fixed_columns. cbn [map fst In]. tauto. }
  revert X D. generalize (map fst six). induction l as [|x l IH]; intros X D; [exact Y|]. inversion X as [|u w X1 X2]; subst. cbn [app].
  constructor; [|apply IH; [exact X2|intros u I; apply D; right; exact I]]. rewrite in_app_iff. intros [I|I]; [contradiction|]. apply (D x (or_introl eq_refl) I).
Qed.
Lemma pars_ok c n : all_nodes c = Ok n -> exists r, make_pars c = Ok r /\ map fst r = map fst (columns (s_nmag c) n) /\
  (forall name v, In (name, v) (starting_values c n) -> exists sh, In (name, sh) (columns (s_nmag c) n) /\ get r name = Some (sh, v)) /\
  (forall name sh, In (name, sh) (columns (s_nmag c) n) -> ~ In name (map fst (starting_values c n)) -> get r name = Some (sh, repeat 0%Q (prod sh))).
Proof.
  intros E. pose proof (columns_nodup (s_nmag c) n) as N. unfold make_pars. rewrite E. cbn [bind]. unfold zeros. rewrite (proj2 (distinct_iff _) N). cbn [bind].
  set (r0 := map _ (columns (s_nmag c) n)).
  destruct (fill_ok (starting_values c n) r0 (start_names c n)) as (r & F1 & F2 & F3 & F4).
  - intros name v I. destruct (start_in c n name v I) as (sh & J & L). exists sh, (repeat 0%Q (prod sh)). split; [apply get_zeros; assumption|]. rewrite repeat_length. exact L.
  - exists r. split; [exact F1|]. split; [rewrite F4; unfold r0; rewrite map_map; apply map_ext; reflexivity|]. split.
    + intros name v I. destruct (start_in c n name v I) as (sh & J & L). exists sh. split; [exact J|]. apply (F2 name v sh (repeat 0%Q (prod sh)) I). apply get_zeros; assumption.
    + intros name sh J K. rewrite F3 by exact K. apply get_zeros; assumption.
Qed.
Lemma all_nodes_inv c n : all_nodes c = Ok n ->
  make_nodes (s_z0 c) (s_z1 c) (s_pivot c) None = Ok (n_pivot n) /\ make_nodes (s_z0 c) (s_z1 c) (s_cov c) None = Ok (n_cov n) /\
  make_nodes (s_z0 c) (s_z1 c) (s_corr c) None = Ok (n_corr n) /\ make_nodes (s_z0 c) (s_z1 c) (s_corrslope c) None = Ok (n_corrslope n) /\
  make_nodes (s_z0 c) (s_z1 c) (1#100) None = Ok (n_vol n) /\ mapM (color_nodes c) (seq 0 (s_nmag c - 1)) = Ok (n_colors n).
Proof.
  unfold all_nodes. intros H.
  destruct (make_nodes (s_z0 c) (s_z1 c) (s_pivot c) None) as [a|]; [|discriminate]. cbn [bind] in H.
  destruct (make_nodes (s_z0 c) (s_z1 c) (s_cov c) None) as [b|]; [|discriminate]. cbn [bind] in H.
  destruct (make_nodes (s_z0 c) (s_z1 c) (s_corr c) None) as [d|]; [|discriminate]. cbn [bind] in H.
  destruct (make_nodes (s_z0 c) (s_z1 c) (s_corrslope c) None) as [e|]; [|discriminate]. cbn [bind] in H.
  destruct (make_nodes (s_z0 c) (s_z1 c) (1#100) None) as [f|]; [|discriminate]. cbn [bind] in H.
  destruct (mapM (color_nodes c) (seq 0 (s_nmag c - 1))) as [l|]; [|discriminate]. cbn [bind] in H. injection H as <-. cbn. repeat split.
Qed.
Lemma mapM_seq {B} (f : nat -> res B) : forall n k l, mapM f (seq k n) = Ok l -> List.length l = n /\ forall j, j < n -> exists y, nth_error l j = Some y /\ f (k + j) = Ok y.
Proof.
  induction n as [|n IH]; intros k l H; cbn [seq mapM] in H; [injection H as <-; split; [reflexivity|intros j L; lia]|].
  destruct (f k) as [y|] eqn:E; [|discriminate]. cbn [bind] in H. destruct (mapM f (seq (S k) n)) as [t|] eqn:F; [|discriminate]. cbn [bind] in H. injection H as <-.
  destruct (IH (S k) t F) as (L & X). split; [cbn; lia|]. intros [|j] Lj; [exists y; rewrite Nat.add_0_r; auto|]. destruct (X j) as (u & X1 & X2); [lia|]. exists u. split; [exact X1|]. rewrite <- X2. f_equal. lia.
Qed.
Lemma mapM_seq_ok {B} (f : nat -> res B) : forall n k, (forall j, j < n -> exists y, f (k + j) = Ok y) -> exists l, mapM f (seq k n) = Ok l.
Proof.
  induction n as [|n IH]; intros k H; [exists []; reflexivity|]. cbn [seq mapM]. destruct (H 0) as (y & E); [lia|]. rewrite Nat.add_0_r in E. rewrite E. cbn [bind].
  destruct (IH (S k)) as (l & F). { intros j L. destruct (H (S j)) as (u & X); [lia|]. exists u. rewrite <- X. f_equal. lia. } rewrite F. eexists. reflexivity.
Qed.
