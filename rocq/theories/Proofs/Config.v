(** Proofs about configurations. *)
From Coq Require Import ZArith String QArith Qabs Qround.
From Verif.Base Require Import Py PyLemmas.
From Verif.Model Require Import Config.
From Verif.Spec Require Import Config.
Local Open Scope string_scope.
Local Open Scope nat_scope.

Fixpoint nodup_str (l : list string) : bool := match l with [] => true | x :: t => negb (existsb (String.eqb x) t) && nodup_str t end.
Lemma nodup_str_ok l : nodup_str l = true -> NoDup l.
Proof.
  induction l as [|x t IH]; cbn; [constructor|]. intros H. apply andb_true_iff in H. destruct H as [H1 H2]. constructor; [|apply IH, H2].
  intros Hin. apply negb_true_iff in H1. rewrite <- not_true_iff_false in H1. apply H1. apply existsb_exists. exists x. split; [exact Hin|apply String.eqb_refl].
Qed.
Lemma find_nodup l f : NoDup (map f_name l) -> In f l -> find (fun g => String.eqb (f_name g) (f_name f)) l = Some f.
Proof.
  induction l as [|g t IH]; cbn; [tauto|]. intros Hn [->|Hin]; [rewrite String.eqb_refl; reflexivity|].
  apply NoDup_cons_iff in Hn. destruct Hn as [Hn Ht]. destruct (String.eqb (f_name g) (f_name f)) eqn:E; [|apply IH; assumption].
  apply String.eqb_eq in E. exfalso. apply Hn. rewrite E. apply in_map, Hin.
Qed.
Lemma options_nodup : NoDup (map f_name options).
Proof. apply nodup_str_ok. vm_compute. reflexivity. Qed.
Lemma find_field_ok f : In f options -> find_field (f_name f) = Some f.
Proof. apply find_nodup, options_nodup. Qed.
Lemma find_field_In n f : find_field n = Some f -> In f options /\ f_name f = n.
Proof. intros H. apply find_some in H. destruct H as [H1 H2]. split; [exact H1|apply String.eqb_eq, H2]. Qed.

Lemma put_other s n m v : m <> n -> vals (put s n v) m = vals s m.
Proof. intros H. unfold put, upd. cbn. destruct (String.eqb m n) eqn:E; [|reflexivity]. apply String.eqb_eq in E. contradiction. Qed.
Lemma put_same s n v : vals (put s n v) n = v.
Proof. unfold put, upd. cbn. rewrite String.eqb_refl. reflexivity. Qed.

(** setting options changes their values only *)
Lemma set_vars_vals cn d : forall s n, ~ In n (keys d) -> vals (fst (set_vars cn s d)) n = vals s n.
Proof.
  induction d as [|[k v] d IH]; intros s n Hn; [reflexivity|]. cbn in Hn. cbn.
  destruct (cn && match v with VNone => true | _ => false end)%bool; [apply IH; tauto|].
  unfold set_one. destruct (find_field k) as [f|].
  - destruct (convert (f_kind f) v) as [w|e]; [|reflexivity]. rewrite IH by tauto. apply put_other. intros ->. apply Hn. left. reflexivity.
  - destruct (existsb (String.eqb k) methods); [apply IH; tauto|reflexivity].
Qed.
Lemma set_vars_lens cn d : forall v, exists v' r, forall l, set_vars cn (mkStore v l) d = (mkStore v' l, r).
Proof.
  induction d as [|[k w] d IH]; intros v; [exists v, (Ok tt); reflexivity|]. cbn.
  destruct (cn && match w with VNone => true | _ => false end)%bool; [apply IH|]. unfold set_one.
  destruct (find_field k) as [f|].
  - destruct (convert (f_kind f) w) as [x|e]; [|exists v, (Err e); reflexivity]. unfold put. cbn. destruct (IH (upd v k x)) as (v' & r & H). exists v', r. intros l. apply H.
  - destruct (existsb (String.eqb k) methods); [apply IH|exists v, (Err AttributeError); reflexivity].
Qed.
Lemma set_vars_lens' cn d s : lens (fst (set_vars cn s d)) = lens s.
Proof. destruct s as [v l]. destruct (set_vars_lens cn d v) as (v' & r & H). rewrite H. reflexivity. Qed.
Lemma set_vars_unknown cn d : forall s n v, In (n, v) d -> (cn = false \/ v <> VNone) -> find_field n = None -> existsb (String.eqb n) methods = false ->
  snd (set_vars cn s d) = Err AttributeError \/ snd (set_vars cn s d) = Err TypeError.
Proof.
  induction d as [|[k w] d IH]; intros s n v Hin Hc Hf Hm; [destruct Hin|]. cbn.
  destruct (cn && match w with VNone => true | _ => false end)%bool eqn:Ec.
  - destruct Hin as [Hin|Hin]; [|apply (IH s n v); assumption]. exfalso. injection Hin as -> ->. apply andb_true_iff in Ec. destruct Ec as [-> Ec].
    destruct Hc as [Hc|Hc]; [discriminate|]. apply Hc. destruct v; [reflexivity|discriminate|discriminate].
  - unfold set_one. destruct (find_field k) as [f|] eqn:Ek.
    + destruct Hin as [Hin|Hin]; [injection Hin as -> ->; congruence|].
      destruct (convert (f_kind f) w) as [x|e] eqn:Ev; [apply (IH _ n v); assumption|]. cbn. right.
      destruct (f_kind f); cbn in Ev; try discriminate. destruct w as [|[| | |]|]; cbn in Ev; congruence.
    + destruct (existsb (String.eqb k) methods) eqn:Em; [|left; reflexivity].
      destruct Hin as [Hin|Hin]; [injection Hin as -> ->; congruence|]. apply (IH _ n v); assumption.
Qed.
Lemma set_vars_app cn d1 d2 s : snd (set_vars cn s (d1 ++ d2)%list) = match snd (set_vars cn s d1) with Ok _ => snd (set_vars cn (fst (set_vars cn s d1)) d2) | Err e => Err e end.
Proof.
  revert s. induction d1 as [|[k w] d IH]; intros s; [reflexivity|]. cbn. destruct (cn && match w with VNone => true | _ => false end)%bool; [apply IH|].
  destruct (set_one s k w); [apply IH|reflexivity].
Qed.
(** the last value given for an option is kept *)
Lemma set_vars_last d : forall s s' n v f, set_vars false s d = (s', Ok tt) -> NoDup (keys d) -> In (n, v) d -> find_field n = Some f -> convert (f_kind f) v = Ok (vals s' n).
Proof.
  induction d as [|[k w] d IH]; intros s s' n v f H Hn Hin Hf; [destruct Hin|]. cbn in H. apply NoDup_cons_iff in Hn. destruct Hn as [Hk Hn].
  destruct (set_one s k w) as [s1|e] eqn:E1; [|discriminate]. destruct Hin as [Hin|Hin]; [|apply (IH s1); assumption].
  injection Hin as -> ->. unfold set_one in E1. rewrite Hf in E1. destruct (convert (f_kind f) v) as [x|e] eqn:Ev; [|discriminate].
  assert (s1 = put s n x) as -> by congruence. f_equal. pose proof (set_vars_vals false d (put s n x) n Hk) as Hv. rewrite H in Hv. cbn in Hv. rewrite Hv. unfold upd. rewrite String.eqb_refl. reflexivity.
Qed.

Lemma set_len_other s k ns n : ~ In n ns -> lens (set_len s k ns) n = lens s n.
Proof.
  intros H. cbn. destruct (existsb (String.eqb n) ns) eqn:E; [|reflexivity]. exfalso. apply existsb_exists in E. destruct E as (x & Hx & Ex). apply String.eqb_eq in Ex. subst. contradiction.
Qed.

(** two length tables that differ only on the options sized while loading *)
Definition lens_like (l1 l2 : string -> option Z) : Prop := forall n, ~ In n sized -> l1 n = l2 n.
Lemma wcen_keys w : incl (keys (wcen_vals w)) from_wcen.
Proof.
  unfold wcen_vals, keys, from_wcen. intros n H. apply in_map_iff in H. destruct H as (q & <- & Hq). apply in_map_iff in Hq. destruct Hq as (p & <- & Hp). cbn [fst]. apply in_map.
  apply in_app_or in Hp. apply in_or_app. destruct Hp as [Hp|Hp]; [left; exact Hp|]. right. destruct (w_phi1 w); [exact Hp|destruct Hp].
Qed.
Lemma validate_same v l1 l2 : (forall k, l1 k = l2 k) -> validate (mkStore v l1) = validate (mkStore v l2).
Proof.
  intros H. unfold validate. assert (E : forallb (validate_one (mkStore v l1)) options = forallb (validate_one (mkStore v l2)) options).
  { clear -H. induction options as [|f t IH]; [reflexivity|]. cbn [forallb]. rewrite IH. f_equal. unfold validate_one. cbn [vals lens]. rewrite H. reflexivity. }
  rewrite E. reflexivity.
Qed.

Definition agree (x y : store * res unit) : Prop := snd x = snd y /\ vals (fst x) = vals (fst y).
Lemma agree_refl v l1 l2 r : agree (mkStore v l1, r) (mkStore v l2, r).
Proof. split; reflexivity. Qed.
Lemma fill_lens v (l0 : string -> option Z) n m : exists v', forall l, fill (mkStore v l) n m = mkStore v' l.
Proof. unfold fill. cbn [vals]. destruct (is_none (v n)); [exists (upd v n (v m))|exists v]; reflexivity. Qed.
Lemma read_wcen_lens E v : exists v' r, forall l, read_wcen E (mkStore v l) = (mkStore v' l, r).
Proof. unfold read_wcen. cbn [vals]. destruct (e_wcen E (v "wcenfile")); [apply set_vars_lens|exists v, (Ok tt); reflexivity]. Qed.
Lemma set_sizes_lens z v l : set_sizes z (mkStore v l) = mkStore v (lens (set_sizes z (mkStore default_of l))).
Proof. destruct z as [[[a n] r] w]. reflexivity. Qed.
Lemma sized_same z l1 l2 : lens_like l1 l2 -> forall k,
  (if existsb (String.eqb k) ["redmagic_zrange"] then Some 2%Z else lens (set_sizes z (mkStore default_of l1)) k) =
  (if existsb (String.eqb k) ["redmagic_zrange"] then Some 2%Z else lens (set_sizes z (mkStore default_of l2)) k).
Proof.
  intros H k. destruct z as [[[a n] r] v]. unfold set_sizes. cbn [lens set_len].
  repeat match goal with |- (if ?b then _ else _) = _ => let E := fresh "E" in destruct b eqn:E; [reflexivity|] end.
  apply H. intros Hin. unfold sized in Hin.
  assert (X : forall ns, existsb (String.eqb k) ns = false -> ~ In k ns).
  { intros ns Ex Hk. rewrite <- not_true_iff_false in Ex. apply Ex, existsb_exists. exists k. split; [exact Hk|apply String.eqb_refl]. }
  apply X in E, E0, E1, E2, E3. cbn in Hin, E, E0, E1, E2, E3. tauto.
Qed.
Lemma fix_zrange_lens v : (exists e, forall l, fix_zrange (mkStore v l) = Err e) \/
  (exists v', forall l, fix_zrange (mkStore v l) = Ok (mkStore v' (fun k => if existsb (String.eqb k) ["redmagic_zrange"] then Some 2%Z else l k))).
Proof.
  unfold fix_zrange, zrange_unset. cbn [vals].
  destruct (match v "redmagic_zrange" with VSeq [] => Ok true | VSeq l => _ | _ => Err TypeError end) as [[|]|e]; cbn [bind].
  - destruct (v "zrange") as [|x|x]; [left; exists TypeError; reflexivity|right; exists (upd v "redmagic_zrange" (VAtom x)); reflexivity|right; exists (upd v "redmagic_zrange" (VSeq x)); reflexivity].
  - right. exists v. reflexivity.
  - left. exists e. reflexivity.
Qed.
Lemma finish_same E st v l1 l2 : lens_like l1 l2 -> agree (finish E st (mkStore v l1)) (finish E st (mkStore v l2)).
Proof.
  intros HL. unfold finish. cbn [vals].
  destruct (truthy (v "has_truth") && _)%bool; [apply agree_refl|]. destruct (truthy (v "centering_use_zspec") && _)%bool; [apply agree_refl|].
  destruct (fill_lens v l1 "limmag_catalog" "limmag_ref") as (v1 & F1). rewrite !F1.
  destruct (read_wcen_lens E v1) as (v2 & r2 & F2). rewrite !F2. destruct r2 as [u|e]; [|apply agree_refl].
  destruct (fill_lens v2 l1 "specfile_train" "specfile") as (v3 & F3). rewrite !F3.
  change (sizes (mkStore v3 l2)) with (sizes (mkStore v3 l1)). destruct (sizes (mkStore v3 l1)) as [z|e]; [|apply agree_refl].
  rewrite !(set_sizes_lens z v3). destruct (fix_zrange_lens v3) as [(e & F4)|(v4 & F4)]; rewrite !F4; [apply agree_refl|].
  rewrite (validate_same v4 _ _ (sized_same z l1 l2 HL)). split; reflexivity.
Qed.
Lemma load_same E d o s1 s2 : lens_like (lens s1) (lens s2) -> agree (load E d o s1) (load E d o s2).
Proof.
  intros HL. unfold load, reset. destruct (set_vars_lens false d default_of) as (v & r & H). rewrite !H. destruct r as [u|e]; [|apply agree_refl].
  set (v1 := match o with Some x => upd v "outpath" x | None => v end).
  assert (F1 : forall l, match o with Some x => put (mkStore v l) "outpath" x | None => mkStore v l end = mkStore v1 l) by (intros l; unfold v1; destruct o; reflexivity).
  rewrite !F1. cbn [vals]. clearbody v1. clear F1.
  assert (Fv : forall l, (do _ <- validate_name (mkStore v1 l) "galfile"; validate_name (mkStore v1 l) "refmag") =
    if (is_none (v1 "galfile") || is_none (v1 "refmag"))%bool then Err ValueError else Ok tt).
  { intros l. unfold validate_name.
    assert (G1 : find_field "galfile" = Some (mkField "galfile" KScalar VNone true None)) by reflexivity.
    assert (G2 : find_field "refmag" = Some (mkField "refmag" KScalar VNone true None)) by reflexivity.
    rewrite G1, G2. unfold validate_one. cbn [f_name f_required f_kind f_len vals lens negb orb]. destruct (v1 "galfile"), (v1 "refmag"); reflexivity. }
  rewrite !Fv. destruct (is_none (v1 "galfile") || is_none (v1 "refmag"))%bool; [apply agree_refl|].
  destruct (do st <- e_stats E (v1 "galfile") (v1 "refmag"); do st' <- area_stats (mkStore v1 (lens s1)) st; Ok (st, st')) as [[st st']|e] eqn:Est.
  - assert (Est2 : (do st <- e_stats E (v1 "galfile") (v1 "refmag"); do st' <- area_stats (mkStore v1 (lens s2)) st; Ok (st, st')) = Ok (st, st')) by exact Est.
    rewrite Est2. destruct (set_vars_lens true st' v1) as (v2 & r2 & H2). rewrite !H2. destruct r2; [|apply agree_refl]. apply finish_same, HL.
  - assert (Est2 : (do st <- e_stats E (v1 "galfile") (v1 "refmag"); do st' <- area_stats (mkStore v1 (lens s2)) st; Ok (st, st')) = Err e) by exact Est.
    rewrite Est2. apply agree_refl.
Qed.

Lemma fill_vals s n m k : k <> n -> vals (fill s n m) k = vals s k.
Proof. intros H. unfold fill. destruct (is_none (vals s n)); [apply put_other, H|reflexivity]. Qed.
Lemma finish_ok E st s s' r : finish E st s = (s', r) ->
  (forall n, ~ In n filled -> ~ In n from_wcen -> vals s' n = vals s n) /\ lens_like (lens s') (lens s) /\
  (r = Ok tt -> validate s' = Ok tt /\ final_checks s' = Ok tt /\ exists z, sizes s' = Ok z /\
     forall n, lens s' n = if existsb (String.eqb n) ["redmagic_zrange"] then Some 2%Z else lens (set_sizes z (mkStore default_of (lens s))) n).
Proof.
  unfold finish. intros H.
  destruct (truthy (vals s "has_truth") && _)%bool; [injection H as <- <-; split; [auto|split; [intros n _; reflexivity|discriminate]]|].
  destruct (truthy (vals s "centering_use_zspec") && _)%bool; [injection H as <- <-; split; [auto|split; [intros n _; reflexivity|discriminate]]|].
  remember (fill s "limmag_catalog" "limmag_ref") as s1 eqn:E1.
  assert (V1 : forall n, ~ In n filled -> vals s1 n = vals s n) by (intros n Hn; subst; apply fill_vals; intros ->; apply Hn; cbn; tauto).
  assert (L1 : lens s1 = lens s) by (subst; unfold fill; destruct (is_none _); reflexivity). clear E1.
  destruct (read_wcen E s1) as [s2 r2] eqn:E2.
  assert (V2 : forall n, ~ In n from_wcen -> vals s2 n = vals s1 n).
  { intros n Hn. unfold read_wcen in E2. destruct (e_wcen E (vals s1 "wcenfile")) as [w|]; [|injection E2 as <- <-; reflexivity].
    replace s2 with (fst (set_vars false s1 (wcen_vals w))) by (rewrite E2; reflexivity). apply set_vars_vals. intros Hk. apply Hn, (wcen_keys w), Hk. }
  assert (L2 : lens s2 = lens s1).
  { unfold read_wcen in E2. destruct (e_wcen E (vals s1 "wcenfile")) as [w|]; [|injection E2 as <- <-; reflexivity].
    replace s2 with (fst (set_vars false s1 (wcen_vals w))) by (rewrite E2; reflexivity). apply set_vars_lens'. }
  destruct r2 as [u|e]; [|injection H as <- <-; split; [intros n Hn Hw; rewrite V2, V1 by assumption; reflexivity|split; [intros n _; congruence|discriminate]]].
  remember (fill s2 "specfile_train" "specfile") as s3 eqn:E3.
  assert (V3 : forall n, ~ In n filled -> vals s3 n = vals s2 n) by (intros n Hn; subst; apply fill_vals; intros ->; apply Hn; cbn; tauto).
  assert (L3 : lens s3 = lens s2) by (subst; unfold fill; destruct (is_none _); reflexivity). clear E3.
  destruct (sizes s3) as [z|e] eqn:Ez; [|injection H as <- <-; split; [intros n Hn Hw; rewrite V3, V2, V1 by assumption; reflexivity|split; [intros n _; congruence|discriminate]]].
  assert (L4 : lens_like (lens (set_sizes z s3)) (lens s)).
  { intros n Hn. destruct s3 as [v3 l3]. cbn in L3. rewrite set_sizes_lens. cbn [lens]. pose proof z as z0. clear z0. destruct z as [[[a q] r0] w]. unfold set_sizes.
    rewrite !set_len_other; [cbn; congruence|..]; intros Hi; apply Hn; cbn in Hi |- *; tauto. }
  destruct (fix_zrange (set_sizes z s3)) as [s4|e] eqn:E4.
  - injection H as <- <-. unfold fix_zrange in E4. destruct (zrange_unset (set_sizes z s3)) as [b|e] eqn:Eb; [|discriminate]. cbn in E4.
    assert (V4 : forall n, n <> "redmagic_zrange" -> vals s4 n = vals s3 n).
    { intros n Hn. destruct s3 as [v3 l3]. rewrite set_sizes_lens in E4. cbn [vals] in E4. destruct b.
      - destruct (v3 "zrange"); [discriminate| |]; injection E4 as <-; cbn [vals set_len]; apply put_other, Hn.
      - injection E4 as <-. reflexivity. }
    assert (L5 : forall n, lens s4 n = if existsb (String.eqb n) ["redmagic_zrange"] then Some 2%Z else lens (set_sizes z s3) n).
    { intros n. destruct b; [destruct (vals (set_sizes z s3) "zrange"); [discriminate| |]|]; injection E4 as <-; reflexivity. }
    split; [|split].
    + intros n Hn Hw. rewrite V4, V3, V2, V1; try assumption; [reflexivity|]. intros ->. apply Hn. cbn. tauto.
    + intros n Hn. rewrite L5. destruct (existsb (String.eqb n) ["redmagic_zrange"]) eqn:Ex; [|apply L4, Hn].
      exfalso. apply Hn. cbn in Ex. rewrite orb_false_r in Ex. apply String.eqb_eq in Ex. subst. cbn. tauto.
    + intros Hr. destruct (validate s4) as [[]|e]; [|discriminate]. cbn in Hr. split; [reflexivity|]. split; [exact Hr|]. exists z. split.
      * rewrite <- Ez. unfold sizes. rewrite !V4 by discriminate. reflexivity.
      * intros n. rewrite L5. destruct s3 as [v3 l3]. rewrite set_sizes_lens. cbn [lens] in *. rewrite L3, L2, L1. reflexivity.
  - injection H as <- <-. split; [|split; [exact L4|discriminate]].
    intros n Hn Hw. transitivity (vals s3 n); [destruct s3; rewrite set_sizes_lens; reflexivity|]. rewrite V3, V2, V1 by assumption. reflexivity.
Qed.
Lemma load_ok E d o s0 s' r : load E d o s0 = (s', r) ->
  lens_like (lens s') (lens s0) /\
  (r = Ok tt -> validate s' = Ok tt /\ final_checks s' = Ok tt /\
    (exists z, sizes s' = Ok z /\ forall n, lens s' n = if existsb (String.eqb n) ["redmagic_zrange"] then Some 2%Z else lens (set_sizes z (mkStore default_of (lens s0))) n) /\
    (exists s1, set_vars false (reset s0) d = (s1, Ok tt) /\
     forall n, ~ In n filled -> ~ In n from_wcen -> (forall g f st, e_stats E g f = Ok st -> ~ In n (keys st)) -> vals s' n = vals s1 n)).
Proof.
  unfold load. intros H. destruct (set_vars false (reset s0) d) as [s1 r1] eqn:E1.
  assert (L1 : lens s1 = lens s0) by (replace s1 with (fst (set_vars false (reset s0) d)) by (rewrite E1; reflexivity); rewrite set_vars_lens'; reflexivity).
  destruct r1 as [[]|e]; [|injection H as <- <-; split; [intros n _; congruence|discriminate]].
  remember (match o with Some v => put s1 "outpath" v | None => s1 end) as s2 eqn:E2.
  assert (V2 : forall n, ~ In n filled -> vals s2 n = vals s1 n).
  { intros n Hn. subst. destruct o; [|reflexivity]. apply put_other. intros ->. apply Hn. cbn. tauto. }
  assert (L2 : lens s2 = lens s1) by (subst; destruct o; reflexivity). clear E2.
  destruct (do _ <- validate_name s2 "galfile"; validate_name s2 "refmag"); [|injection H as <- <-; split; [intros n _; congruence|discriminate]].
  destruct (do st <- e_stats E (vals s2 "galfile") (vals s2 "refmag"); do st' <- area_stats s2 st; Ok (st, st')) as [[st st']|e] eqn:Est; [|injection H as <- <-; split; [intros n _; congruence|discriminate]].
  destruct (e_stats E (vals s2 "galfile") (vals s2 "refmag")) as [st0|e] eqn:Es0; [|discriminate]. cbn in Est.
  destruct (area_stats s2 st0) as [st1|e] eqn:Ea; [|discriminate]. cbn in Est. assert (st0 = st /\ st1 = st') as [-> ->] by (split; congruence).
  assert (K : incl (keys st') (keys st)).
  { unfold area_stats in Ea.
    assert (Kd : incl (keys (drop st "area")) (keys st)).
    { unfold keys, drop. intros n Hn. apply in_map_iff in Hn. destruct Hn as (p & <- & Hp). apply filter_In in Hp. apply in_map, Hp. }
    destruct (vals s2 "area") as [|x|x].
    - destruct (vals s2 "depthfile"); [|assert (st' = st) as -> by congruence; apply incl_refl|assert (st' = st) as -> by congruence; apply incl_refl].
      destruct (num (vals s2 "nside")); [|discriminate]. cbn in Ea. destruct (vlen (vals s2 "hpix")); [|discriminate]. cbn in Ea.
      destruct (_ && _)%bool in Ea; [discriminate|]. assert (st' = st) as -> by congruence. apply incl_refl.
    - destruct (num (VAtom x)); [|discriminate]. cbn in Ea. destruct (num (lookup st "area")); [|discriminate]. cbn in Ea.
      destruct (Qlt_bool area_tol _) in Ea; assert (Eq : st' = _) by (symmetry; injection Ea as Ea; exact Ea); rewrite Eq; [exact Kd|apply incl_refl].
    - discriminate. }
  destruct (set_vars true s2 st') as [s3 r3] eqn:E3.
  assert (L3 : lens s3 = lens s2) by (replace s3 with (fst (set_vars true s2 st')) by (rewrite E3; reflexivity); apply set_vars_lens').
  assert (V3 : forall n, ~ In n (keys st') -> vals s3 n = vals s2 n) by (intros n Hn; replace s3 with (fst (set_vars true s2 st')) by (rewrite E3; reflexivity); apply set_vars_vals, Hn).
  destruct r3 as [[]|e]; [|injection H as <- <-; split; [intros n _; congruence|discriminate]].
  destruct (finish_ok E st s3 s' r H) as (A & B & C). split; [intros n Hn; rewrite B by exact Hn; congruence|].
  intros Hr. destruct (C Hr) as (C1 & C2 & z & C3 & C4). split; [exact C1|]. split; [exact C2|]. split.
  - exists z. split; [exact C3|]. intros n. rewrite C4, L3, L2, L1. reflexivity.
  - exists s1. split; [reflexivity|]. intros n Hn Hw Hs. rewrite A by assumption. rewrite V3; [apply V2, Hn|]. intros Hk. apply (Hs _ _ _ Es0), K, Hk.
Qed.
Lemma reachable_lens s : reachable s -> lens_like (lens s) (lens fresh_store).
Proof.
  induction 1 as [|s i n v s' Hs IH Ha|s E d o Hs IH].
  - intros n _. reflexivity.
  - unfold assign in Ha. destruct (find_field n); [|injection Ha as <-; exact IH]. destruct (convert (f_kind f) v); [|discriminate]. injection Ha as <-. exact IH.
  - destruct (load E d o s) as [s' r] eqn:El. cbn. intros n Hn. rewrite (proj1 (load_ok E d o s s' r El) n Hn). apply IH, Hn.
Qed.
Lemma validate_In s f : validate s = Ok tt -> In f options -> validate_one s f = true.
Proof.
  unfold validate. destruct (forallb (validate_one s) options) eqn:E; [|discriminate]. intros _ Hf. rewrite forallb_forall in E. apply E, Hf.
Qed.
Lemma validate_len s n f k l : validate s = Ok tt -> find_field n = Some f -> f_kind f <> KScalar -> lens s n = Some k -> vals s n = VSeq l -> Z.of_nat (List.length l) = k.
Proof.
  intros Hv Hf Hk Hl Hs. destruct (find_field_In n f Hf) as [Hin Hn]. pose proof (validate_In s f Hv Hin) as H. unfold validate_one in H. rewrite Hn, Hl, Hs in H.
  apply andb_true_iff in H. destruct H as [_ H]. destruct (f_kind f); [contradiction| |]; apply Z.eqb_eq, H.
Qed.
Definition is_seq_field (n : string) : bool := match find_field n with Some f => match f_kind f with KScalar => false | _ => true end | None => false end.
Lemma validate_len' s n k l : validate s = Ok tt -> is_seq_field n = true -> lens s n = Some k -> vals s n = VSeq l -> Z.of_nat (List.length l) = k.
Proof.
  intros Hv Hf. unfold is_seq_field in Hf. destruct (find_field n) as [f|] eqn:E; [|discriminate]. apply (validate_len s n f k l Hv E). destruct (f_kind f); congruence.
Qed.
