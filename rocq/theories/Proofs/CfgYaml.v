(** Proofs about written configurations. *)
From Coq Require Import ZArith String QArith Qabs.
From Verif.Base Require Import Py PyLemmas.
From Verif.Model Require Import Config CfgYaml.
From Verif.Spec Require Import Config CfgYaml.
From Verif.Proofs Require Import Config.
From Coq Require Import Lqa Lia List. Import ListNotations.
Local Open Scope string_scope.
Local Open Scope nat_scope.

Definition same (s t : store) : Prop := forall n, vals s n = vals t n.

Lemma dump_all_ok s fs : forall d, dump_all s fs = Ok d -> d = map (fun f => (f_name f, vals s (f_name f))) fs /\
  (forall f, In f fs -> f_kind f = KArray -> is_sequence (vals s (f_name f))).
Proof.
  induction fs as [|f t IH]; intros d H.
  - cbn in H. assert (d = []) as -> by congruence. split; [reflexivity|]. intros f [].
  - cbn [dump_all] in H. destruct (dump_one s f) as [x|e] eqn:Ex; [|discriminate]. cbn [bind] in H. destruct (dump_all s t) as [r|e]; [|discriminate]. cbn [bind] in H.
    assert (d = x :: r) as -> by congruence. destruct (IH r eq_refl) as [-> B]. unfold dump_one in Ex.
    assert (X : x = (f_name f, vals s (f_name f)) /\ (f_kind f = KArray -> is_sequence (vals s (f_name f)))).
    { destruct (f_kind f).
      - split; [congruence|discriminate].
      - destruct (vals s (f_name f)) as [|a|l]; try discriminate. split; [congruence|intros _; exists l; reflexivity].
      - split; [congruence|discriminate]. }
    destruct X as [-> X]. split; [reflexivity|]. intros g [<-|Hg]; [exact X|apply B, Hg].
Qed.
Lemma dump_all_total s fs : (forall f, In f fs -> f_kind f = KArray -> is_sequence (vals s (f_name f))) -> exists d, dump_all s fs = Ok d.
Proof.
  induction fs as [|f t IH]; intros H; [eexists; reflexivity|]. destruct IH as (r & Er); [intros g Hg; apply H; right; exact Hg|].
  cbn [dump_all]. rewrite Er. unfold dump_one. pose proof (H f (or_introl eq_refl)) as Hf. destruct (f_kind f).
  - eexists; reflexivity.
  - destruct (Hf eq_refl) as (l & ->). eexists; reflexivity.
  - eexists; reflexivity.
Qed.
Lemma dump_keys s d : output_yaml s = Ok d -> keys d = map f_name options.
Proof. intros H. destruct (dump_all_ok s options d H) as [-> _]. unfold keys. rewrite map_map. reflexivity. Qed.

(** what reading back sets *)
Definition list_option_ok (s : store) : Prop := forall f, In f options -> f_kind f = KList -> is_sequence (vals s (f_name f)).
Lemma set_dump s fs : (forall f, In f fs -> In f options) -> (forall f, In f fs -> f_kind f <> KScalar -> is_sequence (vals s (f_name f))) ->
  forall t, exists t1, set_vars false t (map (fun f => (f_name f, vals s (f_name f))) fs) = (t1, Ok tt) /\ lens t1 = lens t /\
    forall n, vals t1 n = if existsb (fun f => String.eqb (f_name f) n) fs then vals s n else vals t n.
Proof.
  induction fs as [|f l IH]; intros Ho Hs t; [exists t; repeat split|]. cbn [map set_vars andb]. unfold set_one. rewrite (find_field_ok f (Ho f (or_introl eq_refl))).
  assert (C : convert (f_kind f) (vals s (f_name f)) = Ok (vals s (f_name f))).
  { pose proof (Hs f (or_introl eq_refl)) as Hf. unfold convert. destruct (f_kind f); [reflexivity| |]; destruct Hf as (x & ->); try discriminate; reflexivity. }
  rewrite C. destruct (IH (fun g Hg => Ho g (or_intror Hg)) (fun g Hg => Hs g (or_intror Hg)) (put t (f_name f) (vals s (f_name f)))) as (t1 & E & L & V).
  exists t1. split; [exact E|]. split; [rewrite L; reflexivity|]. intros n. rewrite V. cbn [existsb]. destruct (existsb _ l); [rewrite orb_true_r; reflexivity|]. rewrite orb_false_r.
  destruct (String.eqb (f_name f) n) eqn:En; [apply String.eqb_eq in En; subst n; apply put_same|]. apply put_other. intros ->. rewrite String.eqb_refl in En. discriminate.
Qed.

(** the same dictionary set twice *)
Lemma set_vars_twice cn d : forall s t, exists s1 t1 r, set_vars cn s d = (s1, r) /\ set_vars cn t d = (t1, r) /\ lens t1 = lens t /\
  forall n, (vals s1 n = vals s n /\ vals t1 n = vals t n) \/ (In n (keys d) /\ vals s1 n = vals t1 n).
Proof.
  induction d as [|[k v] d IH]; intros s t.
  - exists s, t, (Ok tt). repeat split. intros n. left. split; reflexivity.
  - cbn [set_vars]. destruct (cn && _)%bool.
    + destruct (IH s t) as (s1 & t1 & r & A & B & L & C). exists s1, t1, r. repeat split; try assumption. intros n. destruct (C n) as [D|[D F]]; [left; exact D|right; split; [right; exact D|exact F]].
    + unfold set_one. destruct (find_field k) as [f|] eqn:Ef.
      * destruct (convert (f_kind f) v) as [w|e].
        -- destruct (IH (put s k w) (put t k w)) as (s1 & t1 & r & A & B & L & C). exists s1, t1, r. repeat split; try assumption. intros n. destruct (C n) as [[D F]|[D F]]; [|right; split; [right; exact D|exact F]].
           destruct (String.eqb_spec n k) as [->|Hn].
           ++ right. split; [left; reflexivity|]. rewrite D, F, !put_same. reflexivity.
           ++ left. rewrite D, F, !put_other by exact Hn. split; reflexivity.
        -- exists s, t, (Err e). repeat split. intros n. left. split; reflexivity.
      * destruct (existsb (String.eqb k) methods).
        -- destruct (IH s t) as (s1 & t1 & r & A & B & L & C). exists s1, t1, r. repeat split; try assumption. intros n. destruct (C n) as [D|[D F]]; [left; exact D|right; split; [right; exact D|exact F]].
        -- exists s, t, (Err AttributeError). repeat split. intros n. left. split; reflexivity.
Qed.
Lemma set_vars_unknown_kept cn d : forall s n, find_field n = None -> vals (fst (set_vars cn s d)) n = vals s n.
Proof.
  induction d as [|[k v] d IH]; intros s n Hn; [reflexivity|]. cbn [set_vars]. destruct (cn && _)%bool; [apply IH, Hn|]. unfold set_one.
  destruct (find_field k) as [f|] eqn:Ef.
  - destruct (convert (f_kind f) v) as [w|e]; [|reflexivity]. rewrite IH by exact Hn. apply put_other. intros ->. congruence.
  - destruct (existsb (String.eqb k) methods); [apply IH, Hn|reflexivity].
Qed.

(** the parts of loading *)
Definition parts (E : env) (st : dict) (a s : store) : Prop :=
  (truthy (vals a "has_truth") && negb (truthy (lookup st "galfile_has_truth")))%bool = false /\
  (truthy (vals a "centering_use_zspec") && negb (truthy (lookup st "galfile_has_zspec")))%bool = false /\
  exists s2 z, read_wcen E (fill a "limmag_catalog" "limmag_ref") = (s2, Ok tt) /\ sizes (fill s2 "specfile_train" "specfile") = Ok z /\
    fix_zrange (set_sizes z (fill s2 "specfile_train" "specfile")) = Ok s /\ validate s = Ok tt /\ final_checks s = Ok tt.
Lemma finish_parts E st a s : finish E st a = (s, Ok tt) <-> parts E st a s.
Proof.
  unfold finish, parts. split.
  - intros H. destruct (_ && _)%bool; [discriminate|]. destruct (_ && _)%bool; [discriminate|]. split; [reflexivity|]. split; [reflexivity|].
    destruct (read_wcen _ _) as [s2 [[]|e]]; [|discriminate]. destruct (sizes (fill s2 "specfile_train" "specfile")) as [z|e] eqn:Ez; [|discriminate].
    destruct (fix_zrange _) as [s4|e] eqn:E4; [|discriminate]. destruct (validate s4) as [[]|e] eqn:Ev; [|discriminate H]. cbn [bind] in H.
    assert (s4 = s) as -> by congruence. exists s2, z. repeat split; try assumption. congruence.
  - intros (-> & -> & s2 & z & -> & -> & -> & -> & ->). reflexivity.
Qed.
Lemma fill_keeps t n m F : (forall k, vals t k = F k) -> (is_none (F n) = true -> F m = VNone) -> (forall k, vals (fill t n m) k = F k) /\ lens (fill t n m) = lens t.
Proof.
  intros V H. unfold fill. rewrite V. destruct (is_none (F n)) eqn:En; [|split; [exact V|reflexivity]]. split; [|reflexivity]. intros k. rewrite V, (H eq_refl).
  destruct (String.eqb_spec k n) as [->|Hk]; [rewrite put_same; destruct (F n); try discriminate; reflexivity|rewrite put_other by exact Hk; apply V].
Qed.
Lemma fill_lens0 t n m : lens (fill t n m) = lens t.
Proof. unfold fill. destruct (is_none (vals t n)); reflexivity. Qed.
Lemma sizes_ext s t : same s t -> sizes s = sizes t.
Proof. intros H. unfold sizes. rewrite !H. reflexivity. Qed.
Lemma validate_ext s t : same s t -> (forall n, lens s n = lens t n) -> validate s = validate t.
Proof.
  intros V L. unfold validate. assert (E : forallb (validate_one s) options = forallb (validate_one t) options).
  { induction options as [|f l IH]; [reflexivity|]. cbn [forallb]. rewrite IH. f_equal. unfold validate_one. rewrite V, L. reflexivity. }
  rewrite E. reflexivity.
Qed.
Lemma final_ext s t : same s t -> final_checks s = final_checks t.
Proof. intros H. unfold final_checks, bands_ok. rewrite !H. reflexivity. Qed.
Lemma lens_sizes z s n : lens (set_sizes z s) n = lens (set_sizes z (mkStore default_of (lens s))) n.
Proof. destruct s as [v l]. rewrite set_sizes_lens. reflexivity. Qed.
Lemma vals_sizes z s : vals (set_sizes z s) = vals s.
Proof. destruct z as [[[a n] r] v]. reflexivity. Qed.
Lemma fix_zrange_form s s' : fix_zrange s = Ok s' ->
  (forall n, n <> "redmagic_zrange" -> vals s' n = vals s n) /\
  (forall n, lens s' n = if existsb (String.eqb n) ["redmagic_zrange"] then Some 2%Z else lens s n) /\
  ((zrange_unset s = Ok true /\ vals s' "redmagic_zrange" = vals s "zrange" /\ vals s "zrange" <> VNone) \/ (zrange_unset s = Ok false /\ vals s' "redmagic_zrange" = vals s "redmagic_zrange")).
Proof.
  unfold fix_zrange. destruct (zrange_unset s) as [b|e]; [|discriminate]. cbn [bind]. destruct b.
  - intros H. assert (X : s' = set_len (put s "redmagic_zrange" (vals s "zrange")) 2 ["redmagic_zrange"] /\ vals s "zrange" <> VNone)
      by (destruct (vals s "zrange"); [discriminate| |]; split; congruence).
    destruct X as [-> N]. split; [intros n Hn; apply (put_other s "redmagic_zrange" n _ Hn)|]. split; [reflexivity|]. left. split; [reflexivity|]. split; [apply (put_same s "redmagic_zrange")|exact N].
  - intros H. assert (s' = set_len s 2 ["redmagic_zrange"]) as -> by congruence. split; [reflexivity|]. split; [reflexivity|]. right. split; reflexivity.
Qed.
Lemma zrange_unset_ext s t : vals s "redmagic_zrange" = vals t "redmagic_zrange" -> zrange_unset s = zrange_unset t.
Proof. intros H. unfold zrange_unset. rewrite H. reflexivity. Qed.
Lemma fix_zrange_build t b : zrange_unset t = Ok b -> (b = true -> vals t "zrange" <> VNone) ->
  fix_zrange t = Ok (set_len (if b then put t "redmagic_zrange" (vals t "zrange") else t) 2 ["redmagic_zrange"]).
Proof.
  intros H N. unfold fix_zrange. rewrite H. cbn [bind]. destruct b; [|reflexivity]. specialize (N eq_refl). destruct (vals t "zrange"); [congruence| |]; reflexivity.
Qed.

Lemma finish_again E st a s t : finish E st a = (s, Ok tt) -> same t s -> lens_like (lens t) (lens a) -> numeric_range (vals s "zrange") ->
  exists t', finish E st t = (t', Ok tt) /\ same t' s.
Proof.
  intros H V L Z. pose proof (finish_ok E st a s (Ok tt) H) as (K & _ & _). apply finish_parts in H. destruct H as (T1 & T2 & s2 & z & W & Sz & Fz & Va & Fi).
  set (s1 := fill a "limmag_catalog" "limmag_ref") in *. set (s3 := fill s2 "specfile_train" "specfile") in *.
  destruct (fix_zrange_form _ _ Fz) as (Z1 & Z2 & Z3). rewrite vals_sizes in Z1, Z3.
  assert (NW : forall n, ~ In n from_wcen -> vals s2 n = vals s1 n).
  { intros n Hn. unfold read_wcen in W. destruct (e_wcen E (vals s1 "wcenfile")) as [w|]; [|congruence].
    replace s2 with (fst (set_vars false s1 (wcen_vals w))) by (rewrite W; reflexivity). apply set_vars_vals. intros Hk. apply Hn, (wcen_keys w), Hk. }
  assert (nf : forall n, existsb (String.eqb n) (filled ++ from_wcen)%list = false -> vals s n = vals a n).
  { intros n Hn. assert (X : ~ In n (filled ++ from_wcen)%list).
    { intros Hi. rewrite <- not_true_iff_false in Hn. apply Hn, existsb_exists. exists n. split; [exact Hi|apply String.eqb_refl]. }
    apply K; intros Hi; apply X, in_or_app; [left|right]; exact Hi. }
  assert (nw : forall n, existsb (String.eqb n) from_wcen = false -> ~ In n from_wcen).
  { intros n Hn Hi. rewrite <- not_true_iff_false in Hn. apply Hn, existsb_exists. exists n. split; [exact Hi|apply String.eqb_refl]. }
  (* first fill *)
  assert (F1 : is_none (vals s "limmag_catalog") = true -> vals s "limmag_ref" = VNone).
  { intros N. rewrite (nf "limmag_ref" eq_refl). rewrite Z1 in N by discriminate.
    unfold s3 in N. rewrite fill_vals in N by discriminate. rewrite (NW "limmag_catalog" (nw "limmag_catalog" eq_refl)) in N. unfold s1, fill in N.
    destruct (is_none (vals a "limmag_catalog")) eqn:En; [|congruence]. rewrite put_same in N. destruct (vals a "limmag_ref"); [reflexivity|discriminate|discriminate]. }
  destruct (fill_keeps t "limmag_catalog" "limmag_ref" (vals s) V F1) as [V1 L1]. set (t1 := fill t "limmag_catalog" "limmag_ref") in *.
  (* centering file *)
  assert (EW : vals t1 "wcenfile" = vals s1 "wcenfile").
  { rewrite V1, (nf "wcenfile" eq_refl). unfold s1. rewrite fill_vals by discriminate. reflexivity. }
  assert (R : exists t2, read_wcen E t1 = (t2, Ok tt) /\ lens t2 = lens t1 /\ same t2 s).
  { unfold read_wcen in *. rewrite EW. destruct (e_wcen E (vals s1 "wcenfile")) as [w|].
    - destruct (set_vars_twice false (wcen_vals w) s1 t1) as (x & t2 & r & A & B & Lx & C). assert (x = s2 /\ r = Ok tt) as [-> ->] by (split; congruence).
      exists t2. split; [exact B|]. split; [exact Lx|]. intros n. destruct (C n) as [[_ D]|[I D]]; [rewrite D; apply V1|].
      apply wcen_keys in I. rewrite <- D.
      assert (N : n <> "specfile_train" /\ n <> "redmagic_zrange") by (split; intros ->; revert I; apply nw; reflexivity).
      rewrite Z1 by apply N. unfold s3. rewrite fill_vals by apply N. reflexivity.
    - exists t1. split; [reflexivity|]. split; [reflexivity|]. exact V1. }
  destruct R as (t2 & R & L2 & V2).
  assert (F3 : is_none (vals s "specfile_train") = true -> vals s "specfile" = VNone).
  { intros N. rewrite Z1 in N |- * by discriminate. unfold s3 in N |- *. rewrite (fill_vals s2 "specfile_train" "specfile" "specfile") by discriminate. unfold fill in N.
    destruct (is_none (vals s2 "specfile_train")) eqn:En; [|congruence]. rewrite put_same in N. destruct (vals s2 "specfile"); [reflexivity|discriminate|discriminate]. }
  destruct (fill_keeps t2 "specfile_train" "specfile" (vals s) V2 F3) as [V3 L3]. set (t3 := fill t2 "specfile_train" "specfile") in *.
  assert (Sz' : sizes t3 = Ok z).
  { rewrite <- Sz. unfold sizes. rewrite !V3. rewrite !Z1 by discriminate. reflexivity. }
  (* the range of redMaGiC *)
  destruct Z as (q1 & q2 & Z).
  assert (B : exists b, zrange_unset (set_sizes z t3) = Ok b /\ (b = true -> vals s "redmagic_zrange" = vals s "zrange")).
  { destruct Z3 as [(_ & Z4 & _)|(Z4 & Z5)].
    - rewrite <- Z1 in Z4 by discriminate. unfold zrange_unset. rewrite vals_sizes, V3, Z4, Z. unfold num_at. cbn [nth_error num bind].
      destruct (Qlt_bool q1 0); eexists; (split; [reflexivity|]); intros; congruence.
    - exists false. split; [|discriminate]. rewrite <- Z4. apply zrange_unset_ext. rewrite !vals_sizes, V3. exact Z5. }
  destruct B as (b & B1 & B2).
  assert (Fz' := fix_zrange_build (set_sizes z t3) b B1). rewrite vals_sizes in Fz'.
  assert (N : vals t3 "zrange" <> VNone) by (rewrite V3, Z; discriminate). specialize (Fz' (fun _ => N)). set (t4 := set_len _ _ _) in Fz'.
  assert (V4 : same t4 s).
  { intros n. unfold t4. cbn [vals set_len]. destruct b; [|rewrite vals_sizes; apply V3].
    destruct (String.eqb_spec n "redmagic_zrange") as [->|Hn]; [rewrite put_same, V3; symmetry; apply B2; reflexivity|rewrite put_other by exact Hn; rewrite vals_sizes; apply V3]. }
  assert (L4 : forall n, lens t4 n = lens s n).
  { intros n. rewrite Z2. assert (X : lens t4 n = if existsb (String.eqb n) ["redmagic_zrange"] then Some 2%Z else lens (set_sizes z t3) n) by (unfold t4; destruct b; reflexivity).
    rewrite X, (lens_sizes z s3), (lens_sizes z t3). apply sized_same. intros k Hk. rewrite L3, L2, L1, (L k Hk).
    unfold s3, s1. assert (L0 : lens s2 = lens a).
    { transitivity (lens s1); [|apply fill_lens0]. unfold read_wcen in W. destruct (e_wcen E (vals s1 "wcenfile")) as [w|]; [|congruence].
      replace s2 with (fst (set_vars false s1 (wcen_vals w))) by (rewrite W; reflexivity). apply set_vars_lens'. }
    rewrite fill_lens0, L0. reflexivity. }
  exists t4. split; [|exact V4]. apply finish_parts. unfold parts. rewrite !V. rewrite (nf "has_truth" eq_refl), (nf "centering_use_zspec" eq_refl).
  split; [exact T1|]. split; [exact T2|]. exists t2, z. split; [exact R|]. split; [exact Sz'|]. split; [exact Fz'|].
  split; [rewrite <- Va; apply validate_ext; assumption|rewrite <- Fi; apply final_ext, V4].
Qed.

Definition with_out (o : option value) (s : store) : store := match o with Some v => put s "outpath" v | None => s end.
Lemma load_parts E d o s0 s : load E d o s0 = (s, Ok tt) <-> exists s1 st st' s3,
  set_vars false (reset s0) d = (s1, Ok tt) /\ (do _ <- validate_name (with_out o s1) "galfile"; validate_name (with_out o s1) "refmag") = Ok tt /\
  e_stats E (vals (with_out o s1) "galfile") (vals (with_out o s1) "refmag") = Ok st /\ area_stats (with_out o s1) st = Ok st' /\
  set_vars true (with_out o s1) st' = (s3, Ok tt) /\ finish E st s3 = (s, Ok tt).
Proof.
  unfold load. split.
  - intros H. destruct (set_vars false (reset s0) d) as [s1 [[]|e]]; [|discriminate]. fold (with_out o s1) in H. set (s2 := with_out o s1) in *.
    destruct (do _ <- validate_name s2 "galfile"; validate_name s2 "refmag") as [[]|e] eqn:Ev; [|discriminate].
    destruct (e_stats E (vals s2 "galfile") (vals s2 "refmag")) as [st|e] eqn:Es; [|discriminate]. cbn [bind] in H.
    destruct (area_stats s2 st) as [st'|e] eqn:Ea; [|discriminate]. cbn [bind] in H. destruct (set_vars true s2 st') as [s3 [[]|e]] eqn:E3; [|discriminate].
    exists s1, st, st', s3. fold s2. auto 10.
  - intros (s1 & st & st' & s3 & -> & A & B & C & D & F). fold (with_out o s1). rewrite A, B. cbn [bind]. rewrite C. cbn [bind]. rewrite D. exact F.
Qed.
Lemma valid_two s : (do _ <- validate_name s "galfile"; validate_name s "refmag") = if (is_none (vals s "galfile") || is_none (vals s "refmag"))%bool then Err ValueError else Ok tt.
Proof.
  unfold validate_name.
  assert (G1 : find_field "galfile" = Some (mkField "galfile" KScalar VNone true None)) by reflexivity.
  assert (G2 : find_field "refmag" = Some (mkField "refmag" KScalar VNone true None)) by reflexivity.
  rewrite G1, G2. unfold validate_one. cbn [f_name f_required f_kind f_len negb orb]. destruct (vals s "galfile"), (vals s "refmag"); reflexivity.
Qed.
Lemma lookup_In d n v : NoDup (map fst d) -> In (n, v) d -> lookup d n = v.
Proof.
  unfold lookup. induction d as [|[k w] d IH]; intros Hn Hi; [destruct Hi|]. cbn [map fst] in Hn. inversion Hn as [|? ? N1 N2]; subst. cbn [find fst snd]. destruct Hi as [Hi|Hi].
  - assert (k = n /\ w = v) as [-> ->] by (split; congruence). rewrite String.eqb_refl. reflexivity.
  - destruct (String.eqb_spec k n) as [->|Hk]; [exfalso; apply N1; change n with (fst (n, v)); apply in_map, Hi|]. apply IH; assumption.
Qed.
Lemma set_vars_get d : forall s s' n v, set_vars true s d = (s', Ok tt) -> NoDup (map fst d) -> In (n, v) d -> v <> VNone -> forall f, find_field n = Some f -> f_kind f = KScalar -> vals s' n = v.
Proof.
  induction d as [|[k w] d IH]; intros s s' n v H Hn Hi Hv f Ef Kf; [destruct Hi|]. cbn [map fst] in Hn. inversion Hn as [|? ? N1 N2]; subst. cbn [set_vars] in H. destruct Hi as [Hi|Hi].
  - assert (k = n /\ w = v) as [-> ->] by (split; congruence). replace (true && match v with VNone => true | _ => false end)%bool with false in H by (destruct v; [congruence| |]; reflexivity).
    unfold set_one in H. rewrite Ef, Kf in H. cbn [convert] in H. replace s' with (fst (set_vars true (put s n v) d)) by (rewrite H; reflexivity).
    rewrite set_vars_vals by exact N1. apply put_same.
  - destruct (true && _)%bool; [eapply IH; eassumption|]. destruct (set_one s k w) as [s2|e]; [|discriminate]. eapply IH; eassumption.
Qed.
Lemma stat_apart n : In n stat_names -> ~ In n filled /\ ~ In n from_wcen.
Proof.
  intros H. assert (X : forallb (fun n => negb (existsb (String.eqb n) (filled ++ from_wcen)%list)) stat_names = true) by reflexivity. rewrite forallb_forall in X. apply X in H.
  apply negb_true_iff in H. rewrite <- not_true_iff_false in H.
  split; intros I; apply H, existsb_exists; exists n; (split; [apply in_or_app|apply String.eqb_refl]); [left|right]; exact I.
Qed.
Lemma not_in_b n l : existsb (String.eqb n) l = false -> ~ In n l.
Proof. intros H I. rewrite <- not_true_iff_false in H. apply H, existsb_exists. exists n. split; [exact I|apply String.eqb_refl]. Qed.
Lemma load_keeps E d o s0 s n : statistics E -> load E d o s0 = (s, Ok tt) -> existsb (String.eqb n) (filled ++ from_wcen ++ stat_names)%list = false ->
  exists s1, set_vars false (reset s0) d = (s1, Ok tt) /\ vals s n = vals s1 n.
Proof.
  intros S H N. destruct (load_ok E d o s0 s (Ok tt) H) as [_ A]. destruct (A eq_refl) as (_ & _ & _ & s1 & E1 & V). exists s1. split; [exact E1|].
  pose proof (not_in_b _ _ N) as X. apply V.
  - intros I. apply X, in_or_app. left. exact I.
  - intros I. apply X, in_or_app. right. apply in_or_app. left. exact I.
  - intros g r st Hs I. apply X, in_or_app. right. apply in_or_app. right. apply (proj1 (proj2 (S g r st Hs))), I.
Qed.
Lemma set_vars_lists cn d : forall s, list_option_ok s -> list_option_ok (fst (set_vars cn s d)).
Proof.
  induction d as [|[k v] d IH]; intros s H; [exact H|]. cbn [set_vars]. destruct (cn && _)%bool; [apply IH, H|]. unfold set_one. destruct (find_field k) as [f|] eqn:Ef.
  - destruct (convert (f_kind f) v) as [w|e] eqn:Ec; [|exact H]. apply IH. intros g Hg Kg. destruct (String.eqb_spec (f_name g) k) as [Hk|Hk].
    + rewrite Hk, put_same. rewrite <- Hk, (find_field_ok g Hg) in Ef. assert (g = f) as <- by congruence. rewrite Kg in Ec. unfold convert in Ec.
      destruct v as [|[]|l]; try discriminate; eexists; injection Ec as <-; reflexivity.
    + rewrite put_other by exact Hk. apply H; assumption.
  - destruct (existsb (String.eqb k) methods); [apply IH, H|exact H].
Qed.
Lemma lists_default l : list_option_ok (mkStore default_of l).
Proof.
  intros f Hf Kf. cbn [vals]. unfold default_of. rewrite (find_field_ok f Hf).
  assert (X : forallb (fun f => match f_kind f, f_default f with KList, VSeq _ => true | KList, _ => false | _, _ => true end) options = true) by reflexivity.
  rewrite forallb_forall in X. apply X in Hf. rewrite Kf in Hf. destruct (f_default f) as [| |l']; try discriminate. exists l'. reflexivity.
Qed.
Lemma load_lists E d o s0 s : statistics E -> load E d o s0 = (s, Ok tt) -> list_option_ok s.
Proof.
  intros S H f Hf Kf. assert (X : forallb (fun f => match f_kind f with KList => negb (existsb (String.eqb (f_name f)) (filled ++ from_wcen ++ stat_names)%list) | _ => true end) options = true) by reflexivity.
  rewrite forallb_forall in X. pose proof (X f Hf) as Y. rewrite Kf in Y. apply negb_true_iff in Y. destruct (load_keeps E d o s0 s (f_name f) S H Y) as (s1 & E1 & ->).
  replace s1 with (fst (set_vars false (reset s0) d)) by (rewrite E1; reflexivity). apply set_vars_lists; [apply lists_default|exact Hf|exact Kf].
Qed.
Lemma find_none_not n fs : find (fun f => String.eqb (f_name f) n) fs = None -> existsb (fun f => String.eqb (f_name f) n) fs = false.
Proof. induction fs as [|f l IH]; [reflexivity|]. cbn [find existsb]. destruct (String.eqb (f_name f) n); [discriminate|]. exact IH. Qed.
Lemma find_some_in n fs f : find (fun f => String.eqb (f_name f) n) fs = Some f -> existsb (fun f => String.eqb (f_name f) n) fs = true.
Proof. induction fs as [|g l IH]; [discriminate|]. cbn [find existsb]. destruct (String.eqb (f_name g) n); [reflexivity|]. exact IH. Qed.
Lemma all_known_b : forallb known (filled ++ from_wcen ++ stat_names)%list = true.
Proof. reflexivity. Qed.
Lemma read_set E d o s0 s s1 d' : statistics E -> load E d o s0 = (s, Ok tt) -> output_yaml s = Ok d' ->
  exists t, set_vars false (reset s1) d' = (t, Ok tt) /\ lens t = lens s1 /\ same t s.
Proof.
  intros S H D. destruct (dump_all_ok s options d' D) as [-> A].
  destruct (set_dump s options (fun f Hf => Hf) (fun f Hf Hk => match f_kind f as k return f_kind f = k -> is_sequence (vals s (f_name f)) with
     | KScalar => fun e => match Hk e with end | KArray => A f Hf | KList => load_lists E d o s0 s S H f Hf end eq_refl) (reset s1)) as (t & Et & Lt & Vt).
  exists t. split; [exact Et|]. split; [exact Lt|]. intros n. rewrite Vt. destruct (find_field n) as [f|] eqn:Ef; [unfold find_field in Ef; rewrite (find_some_in _ _ _ Ef); reflexivity|].
  pose proof Ef as Ef'. unfold find_field in Ef'. rewrite (find_none_not _ _ Ef').
  assert (N : existsb (String.eqb n) (filled ++ from_wcen ++ stat_names)%list = false).
  { destruct (existsb (String.eqb n) _) eqn:Ex; [|reflexivity]. exfalso. apply existsb_exists in Ex. destruct Ex as (x & Hx & Ex). apply String.eqb_eq in Ex. subst x.
    pose proof all_known_b as K. rewrite forallb_forall in K. apply K in Hx. unfold known in Hx. rewrite Ef in Hx. discriminate. }
  destruct (load_keeps E d o s0 s n S H N) as (x & Ex & ->). replace x with (fst (set_vars false (reset s0) d)) by (rewrite Ex; reflexivity).
  rewrite set_vars_unknown_kept by exact Ef. reflexivity.
Qed.

Lemma load_again E d o s0 s s1 d' : statistics E -> load E d o s0 = (s, Ok tt) -> output_yaml s = Ok d' -> lens_like (lens s1) (lens s0) ->
  numeric_range (vals s "zrange") -> exists s', load E d' None s1 = (s', Ok tt) /\ same s' s.
Proof.
  intros S H D L Z. destruct (read_set E d o s0 s s1 d' S H D) as (t & Et & Lt & Vt).
  apply load_parts in H. destruct H as (a1 & st & st' & s3 & A1 & A2 & A3 & A4 & A5 & A6). set (a2 := with_out o a1) in *.
  pose proof (finish_ok E st s3 s (Ok tt) A6) as (K & _ & _).
  destruct (S _ _ _ A3) as (ND & INC & va & Hva & q & ->).
  assert (Inc' : incl (keys st') (keys st) /\ NoDup (map fst st')).
  { unfold area_stats in A4. destruct (vals a2 "area") as [|x|x].
    - assert (st' = st) as ->; [|split; [apply incl_refl|exact ND]]. destruct (vals a2 "depthfile"); [|congruence|congruence].
      destruct (num (vals a2 "nside")); [|discriminate]. cbn [bind] in A4. destruct (vlen (vals a2 "hpix")); [|discriminate]. cbn [bind] in A4. destruct (_ && _)%bool in A4; congruence.
    - destruct (num (VAtom x)); [|discriminate]. cbn [bind] in A4. destruct (num (lookup st "area")); [|discriminate]. cbn [bind] in A4.
      destruct (Qlt_bool area_tol _) in A4; [|assert (st' = st) as -> by congruence; split; [apply incl_refl|exact ND]].
      assert (X : st' = drop st "area") by congruence. rewrite X. unfold drop. split.
      + unfold keys. intros n Hn. apply in_map_iff in Hn. destruct Hn as (p & <- & Hp). apply filter_In in Hp. apply in_map, Hp.
      + clear -ND. induction st as [|p l IH]; [constructor|]. cbn [map] in ND. inversion ND as [|? ? N1 N2]; subst. cbn [filter]. destruct (negb _); [|apply IH, N2].
        cbn [map]. constructor; [|apply IH, N2]. intros I. apply N1. apply in_map_iff in I. destruct I as (y & Ey & Hy). apply filter_In in Hy. rewrite <- Ey. apply in_map, Hy.
    - discriminate. }
  destruct Inc' as [Inc' ND'].
  assert (Kst : forall n, In n (keys st') -> vals s n = vals s3 n).
  { intros n Hn. destruct (stat_apart n) as [X Y]; [apply INC, Inc', Hn|]. apply K; assumption. }
  assert (Kout : forall n, existsb (String.eqb n) (filled ++ from_wcen ++ stat_names)%list = false -> vals s n = vals a2 n).
  { intros n Hn. pose proof (not_in_b _ _ Hn) as X. rewrite K by (intros I; apply X; rewrite !in_app_iff; tauto).
    replace s3 with (fst (set_vars true a2 st')) by (rewrite A5; reflexivity). apply set_vars_vals. intros I. apply X. rewrite !in_app_iff. right. right. apply INC, Inc', I. }
  assert (Aq : lookup st "area" = VAtom (ANum q)) by (apply lookup_In; assumption).
  assert (Zero : Qlt_bool area_tol (Qabs (q - q)) = false).
  { apply Qlt_bool_false. assert (X : (Qabs (q - q) == 0)%Q) by (setoid_replace (q - q)%Q with 0%Q by ring; reflexivity). rewrite X. unfold area_tol. discriminate. }
  assert (Again : st' = st -> area_stats t st = Ok st').
  { intros ->. assert (Va : vals s "area" = VAtom (ANum q)).
    { rewrite (Kst "area"); [|change "area" with (fst ("area", VAtom (ANum q))); apply in_map, Hva].
      eapply set_vars_get; [exact A5|exact ND|exact Hva|discriminate|reflexivity|reflexivity]. }
    unfold area_stats. rewrite Vt, Va, Aq. cbn [num bind]. rewrite Zero. reflexivity. }
  assert (Ar : area_stats t st = Ok st').
  { pose proof A4 as A4'. unfold area_stats in A4'. destruct (vals a2 "area") as [|x|x] eqn:Ea.
    - apply Again. destruct (vals a2 "depthfile"); [|congruence|congruence].
      destruct (num (vals a2 "nside")); [|discriminate]. cbn [bind] in A4'. destruct (vlen (vals a2 "hpix")); [|discriminate]. cbn [bind] in A4'. destruct (_ && _)%bool in A4'; congruence.
    - destruct (num (VAtom x)) as [qa|] eqn:Eq; [|discriminate]. cbn [bind] in A4'. rewrite Aq in A4'. cbn [num bind] in A4'.
      destruct (Qlt_bool area_tol (Qabs (qa - q))) eqn:Et0; [|apply Again; congruence].
      assert (X : vals s "area" = VAtom x).
      { rewrite K by (apply stat_apart; cbn; tauto). replace s3 with (fst (set_vars true a2 st')) by (rewrite A5; reflexivity). rewrite set_vars_vals; [exact Ea|].
        assert (Ed : st' = drop st "area") by congruence. rewrite Ed. unfold keys, drop. intros I. apply in_map_iff in I. destruct I as (p & Ep & Hp). apply filter_In in Hp. rewrite Ep in Hp. destruct Hp as [_ Hp]. discriminate. }
      unfold area_stats. rewrite Vt, X, Eq. cbn [bind]. rewrite Aq. cbn [num bind]. rewrite Et0. exact A4'.
    - discriminate. }
  destruct (set_vars_twice true st' a2 t) as (x & t3 & r & B1 & B2 & B3 & B4). assert (x = s3 /\ r = Ok tt) as [-> ->] by (split; congruence).
  assert (V3 : same t3 s).
  { intros n. destruct (B4 n) as [[_ Y]|[I Y]]; [rewrite Y; apply Vt|]. rewrite <- Y. symmetry. apply Kst, I. }
  assert (L3 : lens_like (lens t3) (lens s3)).
  { intros n Hn. rewrite B3, Lt, (L n Hn). replace s3 with (fst (set_vars true a2 st')) by (rewrite A5; reflexivity). rewrite set_vars_lens'.
    transitivity (lens a1 n); [|unfold a2, with_out; destruct o; reflexivity]. replace a1 with (fst (set_vars false (reset s0) d)) by (rewrite A1; reflexivity). rewrite set_vars_lens'. reflexivity. }
  destruct (finish_again E st s3 s t3 A6 V3 L3 Z) as (t4 & F & V4). exists t4. split; [|exact V4].
  apply load_parts. exists t, st, st', t3. cbn [with_out]. split; [exact Et|]. split.
  - rewrite valid_two in A2 |- *. rewrite !Vt, (Kout "galfile" eq_refl), (Kout "refmag" eq_refl). exact A2.
  - split; [|auto]. rewrite !Vt, (Kout "galfile" eq_refl), (Kout "refmag" eq_refl). exact A3.
Qed.
