From Coq Require Import Permutation Reals Lra.
From Verif.Base Require Import Py PyLemmas.
From Verif.Model Require Import BkgGen Likelihood.
From Verif.Spec Require Import Likelihood.
From Verif.Proofs Require Import BkgGen.
From Coq Require Import Lra Lia List.
Import ListNotations.
Local Open Scope R_scope.

Lemma total_perm f l l' : Permutation l l' -> total f l = total f l'.
Proof. induction 1; cbn; lra. Qed.
Lemma total_app f l l' : total f (l ++ l') = total f l + total f l'.
Proof. induction l as [|x l IH]; cbn; [lra|rewrite IH; lra]. Qed.
Lemma psum_total l : psum l = total (fun p => p) l.
Proof. induction l as [|x l IH]; cbn; [reflexivity|]. unfold psum in IH. rewrite IH. reflexivity. Qed.
Lemma total_nonneg f l : (forall n, In n l -> 0 <= f (b_p n)) -> 0 <= total f l.
Proof. induction l as [|x l IH]; intros H; cbn; [lra|]. pose proof (H x (or_introl eq_refl)). specialize (IH (fun n Hn => H n (or_intror Hn))). lra. Qed.
Lemma total_pos f l n : (forall n, In n l -> 0 <= f (b_p n)) -> In n l -> 0 < f (b_p n) -> 0 < total f l.
Proof.
  intros H Hn Hp. apply in_split in Hn. destruct Hn as (a & b & ->). rewrite total_app. cbn.
  assert (0 <= total f a) by (apply total_nonneg; intros m Hm; apply H; apply in_or_app; auto).
  assert (0 <= total f b) by (apply total_nonneg; intros m Hm; apply H; apply in_or_app; right; right; exact Hm). lra.
Qed.
Lemma total_le f g l : (forall n, In n l -> f (b_p n) <= g (b_p n)) -> total f l <= total g l.
Proof. induction l as [|x l IH]; intros H; cbn; [lra|]. pose proof (H x (or_introl eq_refl)). specialize (IH (fun n Hn => H n (or_intror Hn))). lra. Qed.
Lemma total_ext f g l : (forall n, In n l -> f (b_p n) = g (b_p n)) -> total f l = total g l.
Proof. induction l as [|x l IH]; intros H; cbn; [lra|]. rewrite (H x (or_introl eq_refl)). rewrite (IH (fun n Hn => H n (or_intror Hn))). lra. Qed.

(** the logarithm: -log(1-p) is at least p *)
Lemma ln_bound p : p < 1 -> p <= - ln (1 - p).
Proof.
  intros H. assert (E : 1 + (- p) <= exp (- p)) by apply exp_ineq1_le.
  assert (ln (1 + - p) <= - p). { rewrite <- (ln_exp (- p)) at 2. destruct E as [E|E]; [left; apply ln_increasing; lra|rewrite <- E; right; reflexivity]. }
  replace (1 - p) with (1 + - p) by lra. lra.
Qed.
Lemma ln_strict p : 0 < p -> p < 1 -> p < - ln (1 - p).
Proof.
  intros H0 H. assert (E : 1 + (- p) < exp (- p)) by (apply exp_ineq1; lra).
  assert (ln (1 + - p) < - p). { rewrite <- (ln_exp (- p)) at 2. apply ln_increasing; lra. }
  replace (1 - p) with (1 + - p) by lra. lra.
Qed.
Lemma neglog_fin p : p < 1 -> neglog p = Fin (- ln (1 - p)).
Proof. intros H. unfold neglog. rewrite (proj2 (Rltb_iff _ _) H). reflexivity. Qed.
Lemma neglog_one : neglog 1 = Inf.
Proof. unfold neglog. destruct (Rltb 1 1) eqn:E; [apply Rltb_iff in E; lra|]. destruct (Req_EM_T 1 1); [reflexivity|lra]. Qed.

Lemma xsum_fin (l : list nbr) : (forall n, In n l -> b_p n < 1) -> xsum (map (fun n => neglog (b_p n)) l) = Fin (total (fun p => - ln (1 - p)) l).
Proof.
  induction l as [|x l IH]; intros H; cbn; [reflexivity|]. rewrite neglog_fin by (apply H; left; reflexivity).
  unfold xsum in IH. rewrite IH by (intros n Hn; apply H; right; exact Hn). reflexivity.
Qed.
Lemma xsum_no_nan (l : list nbr) : (forall n, In n l -> b_p n <= 1) ->
  (exists n, In n l /\ b_p n = 1) -> xsum (map (fun n => neglog (b_p n)) l) = Inf.
Proof.
  intros H.
  assert (G : forall l, (forall n, In n l -> b_p n <= 1) -> xsum (map (fun n => neglog (b_p n)) l) <> NaN).
  { clear. induction l as [|x l IH]; intros H; cbn; [discriminate|]. specialize (IH (fun n Hn => H n (or_intror Hn))). unfold xsum in IH.
    pose proof (H x (or_introl eq_refl)) as Hx. destruct Hx as [Hx|Hx]; [rewrite neglog_fin by exact Hx|rewrite Hx, neglog_one];
      destruct (fold_right xadd (Fin 0) (map (fun n => neglog (b_p n)) l)); cbn; congruence. }
  induction l as [|x l IH]; intros (n & Hn & E); [destruct Hn|].
  assert (Hl : forall n, In n l -> b_p n <= 1) by (intros m Hm; apply H; right; exact Hm).
  pose proof (G l Hl) as Gl. unfold xsum in *. cbn. destruct Hn as [->|Hn].
  - rewrite E, neglog_one. destruct (fold_right xadd (Fin 0) (map (fun n => neglog (b_p n)) l)); cbn; congruence.
  - rewrite (IH Hl (ex_intro _ n (conj Hn E))). pose proof (H x (or_introl eq_refl)) as Hx.
    destruct Hx as [Hx|Hx]; [rewrite neglog_fin by exact Hx|rewrite Hx, neglog_one]; reflexivity.
Qed.

(** the smallest radius *)
Lemma fold_min_le t : forall m, fold_left (fun m x => Rmin m (b_r x)) t m <= m /\ (forall x, In x t -> fold_left (fun m x => Rmin m (b_r x)) t m <= b_r x).
Proof.
  induction t as [|y t IH]; intros m; cbn; [split; [lra|intros x []]|]. destruct (IH (Rmin m (b_r y))) as [A B]. split.
  - eapply Rle_trans; [exact A|apply Rmin_l].
  - intros x [->|Hx]; [eapply Rle_trans; [exact A|apply Rmin_r]|apply B; exact Hx].
Qed.
Lemma fold_min_in t : forall m, fold_left (fun m x => Rmin m (b_r x)) t m = m \/ exists x, In x t /\ fold_left (fun m x => Rmin m (b_r x)) t m = b_r x.
Proof.
  induction t as [|y t IH]; intros m; cbn; [left; reflexivity|]. destruct (IH (Rmin m (b_r y))) as [E|(x & Hx & E)].
  - rewrite E. unfold Rmin. destruct (Rle_dec m (b_r y)); [left; reflexivity|right; exists y; auto].
  - right. exists x. auto.
Qed.
Lemma minr_le l n : In n l -> minr l <= b_r n.
Proof. destruct l as [|x t]; [intros []|]. cbn. destruct (fold_min_le t (b_r x)) as [A B]. intros [->|H]; [exact A|apply B; exact H]. Qed.
Lemma minr_in l : l <> [] -> exists n, In n l /\ b_r n = minr l.
Proof.
  destruct l as [|x t]; [congruence|]. intros _. cbn. destruct (fold_min_in t (b_r x)) as [E|(y & Hy & E)]; [exists x; auto|exists y; auto].
Qed.
Lemma closest_iff l n : In n l -> closest l n <-> ~ minr l < b_r n.
Proof.
  intros Hn. split.
  - intros H L. destruct (minr_in l) as (m & Hm & E); [intros ->; destruct Hn|]. specialize (H m Hm). lra.
  - intros H m Hm. pose proof (minr_le l m Hm). lra.
Qed.

(** the members of the logarithm are the others with a positive probability *)
Lemma filter_perm {A} (f : A -> bool) l l' : Permutation l l' -> Permutation (filter f l) (filter f l').
Proof.
  induction 1; cbn; auto.
  - destruct (f x); auto.
  - destruct (f x), (f y); auto. constructor.
  - eapply Permutation_trans; eauto.
Qed.
Lemma filter_none {A} (f : A -> bool) l : (forall x, In x l -> f x = false) -> filter f l = [].
Proof. induction l as [|x l IH]; intros H; cbn; [reflexivity|]. rewrite (H x (or_introl eq_refl)). apply IH. intros y Hy. apply H. right. exact Hy. Qed.
Lemma incut_far l near far : split_closest l near far -> Permutation (incut l) (filter (fun n => Rltb 0 (b_p n)) far).
Proof.
  intros (P & N & F). unfold incut. eapply Permutation_trans; [apply filter_perm; exact P|]. rewrite filter_app.
  rewrite (filter_none _ near).
  - cbn. rewrite (filter_ext_in _ (fun n => Rltb 0 (b_p n)) far); [apply Permutation_refl|]. intros n Hn.
    assert (Hl : In n l) by (eapply Permutation_in; [apply Permutation_sym; exact P|apply in_or_app; auto]).
    assert (L : minr l < b_r n). { destruct (Rlt_dec (minr l) (b_r n)); [assumption|]. exfalso. apply (F n Hn). apply closest_iff; assumption. }
    rewrite (proj2 (Rltb_iff _ _) L). apply Bool.andb_true_r.
  - intros n Hn. assert (Hl : In n l) by (eapply Permutation_in; [apply Permutation_sym; exact P|apply in_or_app; auto]).
    pose proof (proj1 (closest_iff l n Hl) (N n Hn)) as G. destruct (Rltb (minr l) (b_r n)) eqn:E; [apply Rltb_iff in E; contradiction|apply Bool.andb_false_r].
Qed.
Lemma total_filter f l : f 0 = 0 -> (forall n, In n l -> 0 <= b_p n) -> total f (filter (fun n => Rltb 0 (b_p n)) l) = total f l.
Proof.
  intros H0. induction l as [|x l IH]; intros H; cbn; [reflexivity|]. specialize (IH (fun n Hn => H n (or_intror Hn))).
  destruct (Rltb 0 (b_p x)) eqn:E; cbn; rewrite IH; [reflexivity|]. pose proof (H x (or_introl eq_refl)) as Hx.
  assert (b_p x = 0). { destruct Hx as [Hx|Hx]; [apply (Rltb_iff 0 (b_p x)) in Hx; congruence|auto]. } rewrite H1, H0. lra.
Qed.
Lemma ln_zero : - ln (1 - 0) = 0.
Proof. rewrite Rminus_0_r, ln_1. lra. Qed.
Lemma scale_cancel lam l : 0 < lam -> 0 < psum l -> - lam / scaleval lam l = - psum l.
Proof.
  intros H1 H2. unfold scaleval. rewrite Rabs_right; [field; lra|]. left. apply Rdiv_lt_0_compat; assumption.
Qed.
Lemma psum_pos_filter f l : (forall n, In n l -> 0 <= b_p n) -> (0 < length (filter (fun n => Rltb 0 (b_p n) && f n) l))%nat -> 0 < psum l.
Proof.
  intros H L. destruct (filter (fun n => Rltb 0 (b_p n) && f n) l) as [|n t] eqn:E; [cbn in L; lia|].
  assert (Hn : In n (filter (fun n => Rltb 0 (b_p n) && f n) l)) by (rewrite E; left; reflexivity). apply filter_In in Hn. destruct Hn as [Hn Hp].
  apply Bool.andb_true_iff in Hp. destruct Hp as [Hp _]. apply Rltb_iff in Hp. rewrite psum_total. apply (total_pos _ _ n); auto.
Qed.
