(** Lemmas for Props/PlotSpec.v *)
From Coq Require Import QArith Qabs Sorted.
From Verif.Base Require Import Py PyLemmas.
From Verif.Model Require Import Maskgals Util PlotSpec.
From Verif.Proofs Require Maskgals RedCal Consolidate Chunks.
From Verif.Spec Require Import PlotSpec.
From Coq Require Import Lqa Lia List. Import ListNotations.
Local Open Scope Q_scope.

(** ** least and largest of a list of positions *)
Lemma fold_min_spec t : forall x, (forall y, In y (x :: t) -> (fold_left Nat.min t x <= y)%nat) /\ In (fold_left Nat.min t x) (x :: t).
Proof.
  induction t as [|a t IH]; intros x; cbn [fold_left].
  - split; [intros y [<-|[]]; lia | left; reflexivity].
  - destruct (IH (Nat.min x a)) as [A B]. split.
    + intros y [<- | [<- | H]]; [specialize (A (Nat.min x a) (or_introl eq_refl)); lia | specialize (A (Nat.min x a) (or_introl eq_refl)); lia | apply A; right; exact H].
    + destruct B as [E | B]; [| right; right; exact B]. rewrite <- E. destruct (Nat.min_spec x a) as [[_ ->]|[_ ->]]; [left | right; left]; reflexivity.
Qed.
Lemma fold_max_spec t : forall x, (forall y, In y (x :: t) -> (y <= fold_left Nat.max t x)%nat) /\ In (fold_left Nat.max t x) (x :: t).
Proof.
  induction t as [|a t IH]; intros x; cbn [fold_left].
  - split; [intros y [<-|[]]; lia | left; reflexivity].
  - destruct (IH (Nat.max x a)) as [A B]. split.
    + intros y [<- | [<- | H]]; [specialize (A (Nat.max x a) (or_introl eq_refl)); lia | specialize (A (Nat.max x a) (or_introl eq_refl)); lia | apply A; right; exact H].
    + destruct B as [E | B]; [| right; right; exact B]. rewrite <- E. destruct (Nat.max_spec x a) as [[_ ->]|[_ ->]]; [right; left | left]; reflexivity.
Qed.

(** ** the match when all members belong to a cluster *)
Lemma bin_of cat : NoDup cat -> forall (ms : list (Z * Q)) v id, (forall m, In m ms -> In (fst m) cat) -> nth_error cat v = Some id ->
  map snd (filter (fun p => Nat.eqb (fst p) v) (combine (flat_map (fun y => match index_ofZ y cat with Some i => [i] | None => [] end) (map fst ms)) (map snd ms))) =
  map snd (filter (fun m => Z.eqb (fst m) id) ms).
Proof.
  intros ND. induction ms as [|[y z] ms IH]; intros v id ALL N; [reflexivity|]. cbn [map flat_map fst snd].
  destruct (index_ofZ_In y cat (ALL (y, z) (or_introl eq_refl))) as [i I]. rewrite I. cbn [app combine filter fst].
  assert (R := IH v id (fun m H => ALL m (or_intror H)) N).
  assert (E : Nat.eqb i v = Z.eqb y id).
  { apply index_ofZ_nth in I. destruct (Nat.eqb_spec i v) as [->|A], (Z.eqb_spec y id) as [->|B]; try reflexivity; try congruence.
    elim A. apply (proj1 (NoDup_nth_error cat) ND); [apply nth_error_Some; congruence | congruence]. }
  rewrite E. destruct (Z.eqb y id); cbn [map snd]; rewrite R; reflexivity.
Qed.
Lemma pos_in cat : NoDup cat -> forall ids i, In i (flat_map (fun y => match index_ofZ y cat with Some i => [i] | None => [] end) ids) <-> exists y, In y ids /\ nth_error cat i = Some y.
Proof.
  intros ND ids i. rewrite in_flat_map. split; intros [y [Y H]]; exists y; (split; [exact Y|]).
  - destruct (index_ofZ y cat) eqn:E; [|destruct H]. destruct H as [<-|[]]. apply index_ofZ_nth; exact E.
  - rewrite (Consolidate.index_nth cat ND i y H). left; reflexivity.
Qed.
Lemma bin_should cat ms v id : NoDup cat -> (forall m, In m (with_spec ms) -> In (fst m) cat) -> nth_error cat v = Some id ->
  bin_median (flat_map (fun y => match index_ofZ y cat with Some i => [i] | None => [] end) (map fst (with_spec ms))) (map snd (with_spec ms)) v = should ms id.
Proof.
  intros ND ALL N. unfold bin_median. rewrite (bin_of cat ND _ v id ALL N). unfold should, redshifts_of.
  replace (filter (fun m => Z.eqb (fst m) id) (with_spec ms)) with (filter (fun m => Z.eqb (fst m) id && Qlt_bool 0 (snd m))%bool ms); [reflexivity|].
  unfold with_spec. clear. induction ms as [|m ms IH]; [reflexivity|]. cbn [filter]. destruct (Qlt_bool 0 (snd m)); cbn [filter]; rewrite ?andb_true_r, ?andb_false_r, IH; reflexivity.
Qed.
Lemma should_none ms id : (forall m, In m (with_spec ms) -> fst m <> id) -> should ms id = 0.
Proof.
  intros H. unfold should, redshifts_of. assert (filter (fun m => Z.eqb (fst m) id && Qlt_bool 0 (snd m))%bool ms = []) as ->; [|reflexivity].
  destruct (filter _ ms) as [|m l] eqn:E; [reflexivity|]. assert (M : In m (m :: l)) by (left; reflexivity). rewrite <- E in M. apply filter_In in M.
  destruct M as [M P]. apply andb_prop in P. destruct P as [P Q]. apply Z.eqb_eq in P. elim (H m); [apply filter_In; auto | exact P].
Qed.
Lemma medians_shifted cat ms k idk : NoDup cat -> (forall m, In m (with_spec ms) -> In (fst m) cat) -> nth_error cat k = Some idk -> (exists m, In m (with_spec ms) /\ fst m = idk) ->
  (forall i id, (i < k)%nat -> nth_error cat i = Some id -> forall m, In m (with_spec ms) -> fst m <> id) ->
  exists out, member_medians cat ms = Ok out /\ length out = length cat /\
    (forall i id, nth_error cat (k + i) = Some id -> nth_error out i = Some (should ms id)) /\
    (forall i, (length cat <= k + i)%nat -> (i < length cat)%nat -> nth_error out i = Some 0).
Proof.
  intros ND ALL NK [mk [MK EK]] LOW. unfold member_medians. cbv zeta.
  assert (W : with_spec ms <> []) by (intros X; rewrite X in MK; destruct MK).
  assert (C : cat <> []) by (intros X; rewrite X in NK; destruct k; discriminate NK).
  unfold eu_match. assert (length cat =? 0 = false)%nat as -> by (destruct cat; [congruence|reflexivity]).
  assert (length (map fst (with_spec ms)) =? 0 = false)%nat as -> by (destruct (with_spec ms); [congruence|reflexivity]).
  cbn [orb]. rewrite (proj2 (nodupZ_iff cat) ND). cbn [bind]. rewrite match_from_fst.
  set (a := flat_map _ (map fst (with_spec ms))). pose proof (pos_in cat ND (map fst (with_spec ms))) as PI. fold a in PI.
  assert (KA : In k a). { apply PI. exists idk. split; [rewrite <- EK; apply in_map; exact MK | exact NK]. }
  destruct a as [|x t] eqn:EA; [destruct KA|]. rewrite <- EA in *. rewrite EA.
  destruct (fold_min_spec t x) as [MA MB]. destruct (fold_max_spec t x) as [XA XB]. rewrite <- EA in MA, MB, XA, XB. rewrite <- EA.
  assert (L : fold_left Nat.min t x = k).
  { apply Nat.le_antisymm; [apply MA; exact KA|]. destruct (Nat.le_gt_cases k (fold_left Nat.min t x)) as [H|H]; [exact H|].
    apply PI in MB. destruct MB as [y [Y N]]. apply in_map_iff in Y. destruct Y as [m [<- M]]. elim (LOW _ _ H N m M). reflexivity. }
  rewrite L. set (hi := fold_left Nat.max t x) in *.
  assert (HI : (hi < length cat)%nat). { apply PI in XB. destruct XB as [y [_ N]]. apply nth_error_Some. congruence. }
  eexists. split; [reflexivity|]. split; [rewrite map_length, seq_length; reflexivity|]. split.
  - intros i id N. assert (I : (k + i < length cat)%nat) by (apply nth_error_Some; congruence).
    rewrite nth_error_map, nth_error_nth' with (d := 0%nat) by (rewrite seq_length; lia). rewrite seq_nth by lia. cbn [option_map plus]. f_equal.
    destruct (Nat.ltb_spec i (hi - k + 1)) as [H|H].
    + rewrite EA. rewrite <- EA. unfold a in *. apply bin_should; assumption.
    + symmetry. apply should_none. intros m M E. assert (IN : In (k + i)%nat a). { apply PI. exists id. split; [rewrite <- E; apply in_map; exact M | exact N]. }
      specialize (XA _ IN). lia.
  - intros i I J. rewrite nth_error_map, nth_error_nth' with (d := 0%nat) by (rewrite seq_length; lia). rewrite seq_nth by lia. cbn [option_map plus]. f_equal.
    specialize (XA _ KA). destruct (Nat.ltb_spec i (hi - k + 1)) as [H|H]; [lia | reflexivity].
Qed.

(** ** sorted lists and the median *)
Lemma ins_sorted x l : StronglySorted Qle l -> StronglySorted Qle (ins x l).
Proof.
  induction l as [|y l IH]; intros H; cbn [ins]; [constructor; constructor|]. inversion H as [|? ? S F]; subst.
  destruct (Qle_bool x y) eqn:E.
  - apply Qle_bool_iff in E. constructor; [exact H|]. constructor; [exact E|]. eapply Forall_impl; [|exact F]. intros z Z. eapply Qle_trans; eassumption.
  - constructor; [apply IH; exact S|]. assert (G : y <= x). { destruct (Qlt_le_dec y x) as [G|G]; [apply Qlt_le_weak; exact G|]. apply Qle_bool_iff in G. congruence. }
    clear -F G. induction l as [|z l IH]; cbn [ins]; [repeat constructor; exact G|]. inversion F; subst. destruct (Qle_bool x z); constructor; auto.
Qed.
Lemma sort_sorted l : StronglySorted Qle (sortQ l).
Proof. induction l; cbn; [constructor | apply ins_sorted; assumption]. Qed.
Lemma ins_count f x l : length (filter f (ins x l)) = length (filter f (x :: l)).
Proof.
  induction l as [|y l IH]; [reflexivity|]. cbn [ins]. destruct (Qle_bool x y); [reflexivity|]. cbn [filter] in *. destruct (f y); cbn [length]; rewrite IH; destruct (f x); reflexivity.
Qed.
Lemma sort_count f l : length (filter f (sortQ l)) = length (filter f l).
Proof. induction l as [|x l IH]; [reflexivity|]. cbn [sortQ fold_right]. fold (sortQ l). rewrite ins_count. cbn [filter]. destruct (f x); cbn [length]; congruence. Qed.
Lemma sort_length l : length (sortQ l) = length l.
Proof. generalize (sort_count (fun _ => true) l). assert (T : forall m : list Q, filter (fun _ => true) m = m) by (induction m as [|? ? E]; cbn; [|rewrite E]; reflexivity). rewrite !T. auto. Qed.
Lemma filter_all_le {A} (f : A -> bool) l : (forall x, In x l -> f x = true) -> length (filter f l) = length l.
Proof. induction l as [|x l IH]; intros H; [reflexivity|]. cbn. rewrite (H x (or_introl eq_refl)). cbn. rewrite IH; [reflexivity|]. intros y Y. apply H; right; exact Y. Qed.
Lemma SS_le s : StronglySorted Qle s -> forall i j, (i <= j < length s)%nat -> nth i s 0 <= nth j s 0.
Proof.
  induction 1 as [|x s S IH F]; intros i j H; cbn [length] in H; [lia|]. destruct i, j; cbn [nth]; try lia; try apply Qle_refl.
  - rewrite Forall_forall in F. apply F. apply nth_In. lia.
  - apply IH. lia.
Qed.
Lemma below s i m : StronglySorted Qle s -> (i < length s)%nat -> nth i s 0 <= m -> (S i <= length (filter (fun x => Qle_bool x m) s))%nat.
Proof.
  intros S I H. rewrite <- (firstn_skipn (Datatypes.S i) s), filter_app, app_length, filter_all_le; [rewrite firstn_length; lia|].
  intros x X. apply (In_nth _ _ 0) in X. destruct X as [j [J <-]]. rewrite firstn_length in J. apply Qle_bool_iff.
  assert (nth j (firstn (Datatypes.S i) s) 0 = nth j s 0) as ->. { rewrite <- (firstn_skipn (Datatypes.S i) s) at 2. rewrite app_nth1; [reflexivity|]. rewrite firstn_length; lia. }
  eapply Qle_trans; [apply (SS_le s S j i)|exact H]. lia.
Qed.
Lemma above s i m : StronglySorted Qle s -> (i < length s)%nat -> m <= nth i s 0 -> (length s - i <= length (filter (fun x => Qle_bool m x) s))%nat.
Proof.
  intros S I H. rewrite <- (firstn_skipn i s) at 2. rewrite filter_app, app_length, (filter_all_le _ (skipn i s)); [rewrite skipn_length; lia|].
  intros x X. apply (In_nth _ _ 0) in X. destruct X as [j [J <-]]. rewrite skipn_length in J. apply Qle_bool_iff.
  assert (nth j (skipn i s) 0 = nth (i + j) s 0) as ->. { rewrite <- (firstn_skipn i s) at 2. rewrite app_nth2; rewrite firstn_length; [f_equal|]; lia. }
  eapply Qle_trans; [exact H|]. apply SS_le; [exact S|lia].
Qed.
Lemma median_halves l : l <> [] -> (length l <= 2 * length (filter (fun x => Qle_bool x (medianQ l)) l))%nat /\ (length l <= 2 * length (filter (fun x => Qle_bool (medianQ l) x) l))%nat.
Proof.
  intros N. assert (P : (0 < length l)%nat) by (destruct l; [congruence|cbn; lia]). pose proof (sort_sorted l) as SS. pose proof (sort_length l) as SL.
  assert (D := Nat.div_mod (length l) 2 ltac:(lia)). assert (D' := Nat.div_mod (length l - 1) 2 ltac:(lia)).
  assert (B := Nat.mod_upper_bound (length l) 2 ltac:(lia)). assert (B' := Nat.mod_upper_bound (length l - 1) 2 ltac:(lia)).
  assert (LE : nth ((length l - 1) / 2) (sortQ l) 0 <= nth (length l / 2) (sortQ l) 0) by (apply SS_le; [exact SS|lia]).
  assert (M : medianQ l == (nth ((length l - 1) / 2) (sortQ l) 0 + nth (length l / 2) (sortQ l) 0) / 2) by reflexivity.
  set (u := nth ((length l - 1) / 2) (sortQ l) 0) in *. set (v := nth (length l / 2) (sortQ l) 0) in *.
  assert (U : u <= medianQ l) by (rewrite M; apply Qle_shift_div_l; lra). assert (V : medianQ l <= v) by (rewrite M; apply Qle_shift_div_r; lra).
  rewrite <- (sort_count (fun x => Qle_bool x (medianQ l))), <- (sort_count (fun x => Qle_bool (medianQ l) x)). split.
  - pose proof (below (sortQ l) ((length l - 1) / 2) (medianQ l) SS ltac:(lia) U). lia.
  - pose proof (above (sortQ l) (length l / 2) (medianQ l) SS ltac:(lia) V). lia.
Qed.
Lemma median_const c l : l <> [] -> (forall x, In x l -> x == c) -> medianQ l == c.
Proof. intros N H. destruct (Maskgals.median_within l c c N) as [A B]; [intros x X; rewrite (H x X); split; apply Qle_refl | lra]. Qed.
