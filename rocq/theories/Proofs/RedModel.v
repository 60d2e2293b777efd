(** Proofs about the model of the red sequence. *)
From Coq Require Import QArith Qround Qabs Permutation.
From Verif.Base Require Import Py PyLemmas Sort.
From Verif.Model Require Import Richness RedModel.
From Verif.Spec Require Import RedModel.
From Verif.Proofs Require Import Richness.
From Coq Require Import Lqa Lia List. Import ListNotations.
Local Open Scope nat_scope.

Lemma map_nth_all (l : list Q) : map (fun i => nth i l 0%Q) (seq 0 (List.length l)) = l.
Proof.
  induction l as [|a l IH]; [reflexivity|]. cbn [List.length seq map nth]. f_equal. rewrite <- seq_shift, map_map. exact IH.
Qed.
Lemma filter_perm_len {A} (p : A -> bool) l l' : Permutation l l' -> List.length (filter p l) = List.length (filter p l').
Proof. intros H. induction H; cbn; [reflexivity|destruct (p x); cbn; congruence|destruct (p x), (p y); reflexivity|congruence]. Qed.
Lemma filter_len {A} (p : A -> bool) l : List.length (filter p l) <= List.length l.
Proof. induction l as [|a l IH]; cbn; [lia|]. destruct (p a); cbn; lia. Qed.
Lemma filter_none {A} (p : A -> bool) l : (forall x, In x l -> p x = false) -> filter p l = [].
Proof. induction l as [|a l IH]; intros H; [reflexivity|]. cbn. rewrite (H a) by (left; reflexivity). apply IH. intros; apply H; right; assumption. Qed.
Lemma filter_all {A} (p : A -> bool) l : (forall x, In x l -> p x = true) -> filter p l = l.
Proof. induction l as [|a l IH]; intros H; [reflexivity|]. cbn. rewrite (H a) by (left; reflexivity). f_equal. apply IH. intros; apply H; right; assumption. Qed.
Lemma In_skipn_nth {A} (l : list A) k x : In x (skipn k l) -> exists i, k <= i /\ nth_error l i = Some x.
Proof.
  revert l. induction k as [|k IH]; intros l I; [apply In_nth_error in I; destruct I as (i & I); exists i; split; [lia|exact I]|].
  destruct l as [|a l]; [destruct I|]. cbn in I. destruct (IH l I) as (i & L & E). exists (S i). split; [lia|exact E].
Qed.
Lemma In_firstn_nth {A} (l : list A) k x : In x (firstn k l) -> exists i, i < k /\ nth_error l i = Some x.
Proof.
  revert l. induction k as [|k IH]; intros l I; [destruct I|]. destruct l as [|a l]; [destruct I|]. cbn in I. destruct I as [<-|I]; [exists 0; split; [lia|reflexivity]|].
  destruct (IH l I) as (i & L & E). exists (S i). split; [lia|exact E].
Qed.

Lemma rank_of asort l k : argsort_spec asort -> k < List.length l -> exists i x, nth_error (asort l) k = Some i /\ nth_error l i = Some x /\ at_rank k l x.
Proof.
  intros A L. destruct (A l) as (P & O). pose proof (asort_length asort l A) as LA.
  destruct (nth_error (asort l) k) as [i|] eqn:E; [|apply nth_error_None in E; lia].
  assert (Li : i < List.length l). { apply nth_error_In in E. apply (Permutation_in _ P) in E. apply in_seq in E. lia. }
  destruct (nth_error l i) as [x|] eqn:Ex; [|apply nth_error_None in Ex; lia]. exists i, x. split; [reflexivity|]. split; [exact Ex|]. split; [apply nth_error_In in Ex; exact Ex|].
  set (s := map (fun i => nth i l 0%Q) (asort l)).
  assert (Ps : Permutation s l). { rewrite <- (map_nth_all l). apply Permutation_map. exact P. }
  assert (Ls : List.length s = List.length l) by (unfold s; rewrite map_length; exact LA).
  assert (N : forall m y, nth_error s m = Some y -> exists q, nth_error (asort l) m = Some q /\ nth_error l q = Some y).
  { intros m y H. unfold s in H. rewrite nth_error_map in H. destruct (nth_error (asort l) m) as [q|] eqn:Eq; [|discriminate]. injection H as <-. exists q. split; [reflexivity|].
    apply nth_error_nth'. apply nth_error_In in Eq. apply (Permutation_in _ P) in Eq. apply in_seq in Eq. lia. }
  assert (S0 : forall m y, nth_error s m = Some y -> (m <= k -> (y <= x)%Q) /\ (k <= m -> (x <= y)%Q)).
  { intros m y H. destruct (N m y H) as (q & Eq & Ey). split; intros Lm.
    - destruct (Nat.eq_dec m k) as [->|D]; [assert (q = i) by congruence; subst; assert (y = x) by congruence; subst; apply Qle_refl|]. apply (O m k q i y x); auto; lia.
    - destruct (Nat.eq_dec m k) as [->|D]; [assert (q = i) by congruence; subst; assert (y = x) by congruence; subst; apply Qle_refl|]. apply (O k m i q x y); auto; lia. }
  rewrite <- (filter_perm_len _ _ _ Ps), <- (filter_perm_len _ _ _ Ps). split.
  - rewrite <- (firstn_skipn k s) at 1. rewrite filter_app, app_length. rewrite (filter_none _ (skipn k s)).
    + cbn. pose proof (filter_len (fun y => Qlt_bool y x) (firstn k s)). rewrite firstn_length in H. lia.
    + intros y I. apply In_skipn_nth in I. destruct I as (m & Lm & I). apply Qlt_bool_false. apply (S0 m y I). lia.
  - rewrite <- (firstn_skipn (S k) s) at 1. rewrite filter_app, app_length. rewrite (filter_all _ (firstn (S k) s)).
    + rewrite firstn_length. lia.
    + intros y I. apply In_firstn_nth in I. destruct I as (m & Lm & I). apply Qle_bool_iff. apply (S0 m y I). lia.
Qed.
Lemma frac_lt f n : (0 <= f < 1)%Q -> 0 < n -> Z.to_nat (Qfloor (f * inject_Z (Z.of_nat n))) < n.
Proof.
  intros F N. set (q := (f * inject_Z (Z.of_nat n))%Q). assert (B : (q < inject_Z (Z.of_nat n))%Q).
  { unfold q. assert (0 < inject_Z (Z.of_nat n))%Q by (change 0%Q with (inject_Z 0); rewrite <- Zlt_Qlt; lia). setoid_replace (inject_Z (Z.of_nat n)) with (1 * inject_Z (Z.of_nat n))%Q at 2 by ring. apply Qmult_lt_compat_r; lra. }
  pose proof (Qfloor_le q). assert (inject_Z (Qfloor q) < inject_Z (Z.of_nat n))%Q by lra. rewrite <- Zlt_Qlt in H0. lia.
Qed.
Lemma at_fraction_ok asort l f : argsort_spec asort -> l <> [] -> (0 <= f < 1)%Q ->
  exists x, at_fraction (asort l) l f = Ok x /\ at_rank (Z.to_nat (Qfloor (f * inject_Z (Z.of_nat (List.length l))))) l x.
Proof.
  intros A N F. assert (L : 0 < List.length l) by (destruct l; [congruence|cbn; lia]). destruct (rank_of asort l _ A (frac_lt f _ F L)) as (i & x & E1 & E2 & R).
  exists x. unfold at_fraction. rewrite E1, E2. auto.
Qed.
Lemma combine_maps {A B C} (f : A -> B) (g : A -> C) l : combine (map f l) (map g l) = map (fun a => (f a, g a)) l.
Proof. induction l; cbn; congruence. Qed.
Lemma trimmed_ok asort T j gals : argsort_spec asort -> gals <> [] -> exists lo hi,
  at_rank (Z.to_nat (Qfloor ((5#100) * inject_Z (Z.of_nat (List.length gals))))) (map (offset T j) gals) lo /\
  at_rank (Z.to_nat (Qfloor ((99#100) * inject_Z (Z.of_nat (List.length gals))))) (map (offset T j) gals) hi /\
  trimmed asort T j gals = Ok (map (fun g => (offset T j g, g_err g j)) (filter (fun g => (Qlt_bool lo (offset T j g) && Qlt_bool (offset T j g) hi)%bool) gals)).
Proof.
  intros A N. assert (N' : map (offset T j) gals <> []) by (destruct gals; [congruence|discriminate]).
  destruct (at_fraction_ok asort _ (5#100) A N') as (lo & E1 & R1); [lra|]. destruct (at_fraction_ok asort _ (99#100) A N') as (hi & E2 & R2); [lra|]. rewrite map_length in R1, R2.
  exists lo, hi. split; [exact R1|]. split; [exact R2|]. unfold trimmed. cbv zeta. fold (offset T j). change (fun g => (g_col g j - t_init T j (g_z g))%Q) with (offset T j). rewrite E1. cbn [bind]. rewrite E2. cbn [bind]. f_equal.
  rewrite combine_maps. clear. induction gals as [|g gals IH]; [reflexivity|]. cbn [map filter fst]. destruct (_ && _)%bool; cbn [map]; [f_equal|]; exact IH.
Qed.
Lemma fit_modes_spec asort T nodes gals modes : forall tab out, fit_modes asort T nodes gals modes tab = Ok out ->
  List.length out = List.length tab /\ forall j, (In j modes -> exists c, fit_mode asort T nodes gals j = Ok c /\ nth_error out j = Some c) /\ (~ In j modes -> nth_error out j = nth_error tab j).
Proof.
  induction modes as [|m modes IH]; intros tab out H; cbn [fit_modes] in H.
  - injection H as <-. split; [reflexivity|]. intros j. split; [intros []|reflexivity].
  - destruct (Nat.leb_spec (List.length tab) m) as [L|L]; [discriminate|]. destruct (fit_mode asort T nodes gals m) as [c|] eqn:E; [|discriminate]. cbn [bind] in H.
    destruct (IH _ _ H) as (Ln & J). rewrite set_nth_length in Ln. split; [exact Ln|]. intros j. destruct (J j) as (J1 & J2). destruct (in_dec Nat.eq_dec j modes) as [I|I].
    + split; [intros _; apply J1, I|]. intros D. exfalso. apply D. right. exact I.
    + rewrite (J2 I). split.
      * intros [->|D]; [|contradiction]. exists c. split; [exact E|apply set_nth_same, L].
      * intros D. apply set_nth_other. intros ->. apply D. left. reflexivity.
Qed.
Lemma fit_mode_total asort T nodes gals j : argsort_spec asort -> gals <> [] -> exists c, fit_mode asort T nodes gals j = Ok c.
Proof.
  intros A N. unfold fit_mode. destruct (trimmed_ok asort T j gals A N) as (lo & hi & _ & _ & ->). cbn [bind]. destruct (t_mix _ _) as [mu sigma]. cbv zeta. destruct (t_both _ _ _ _ _ _) as [m2 s2]. eexists. reflexivity.
Qed.
Lemma fit_modes_total asort T nodes gals modes : argsort_spec asort -> gals <> [] -> forall tab, (forall j, In j modes -> j < List.length tab) -> exists out, fit_modes asort T nodes gals modes tab = Ok out.
Proof.
  intros A N. induction modes as [|m modes IH]; intros tab H; [eexists; reflexivity|]. cbn [fit_modes]. pose proof (H m (or_introl eq_refl)). destruct (Nat.leb_spec (List.length tab) m); [lia|].
  destruct (fit_mode_total asort T nodes gals m A N) as (c & ->). cbn [bind]. apply IH. intros j I. rewrite set_nth_length. apply H. right. exact I.
Qed.
Lemma agree_map {B} j (f f' : sgal -> B) a b : agree j a b -> (forall x y, g_z x = g_z y -> g_col x j = g_col y j -> g_err x j = g_err y j -> g_merr x j = g_merr y j -> g_merr x (j + 1) = g_merr y (j + 1) -> f x = f' y) -> map f a = map f' b.
Proof. intros H E. induction H as [|x y a b (H1 & H2 & H3 & H4 & H5) H IH]; [reflexivity|]. cbn. rewrite IH, (E x y) by assumption. reflexivity. Qed.
Lemma agree_filter j (p : sgal -> bool) a b : agree j a b -> (forall x y, g_z x = g_z y -> g_col x j = g_col y j -> p x = p y) -> agree j (filter p a) (filter p b).
Proof. intros H E. induction H as [|x y a b K H IH]; [constructor|]. cbn. destruct K as (H1 & H2 & H3). rewrite (E x y) by assumption. destruct (p y); [constructor; [repeat split; tauto|]|]; exact IH. Qed.
