(** C193: the fit of one correlation between two colors. *)
From Coq Require Import Reals Lra.
From Verif.Base Require Import Py PyLemmas.
From Verif.Model Require Import BkgGen OffFit.
From Verif.Spec Require Import OffFit.
From Verif.Proofs Require Import BkgGen OffFit.
From Coq Require Import Lia List Bool. Import ListNotations.
Local Open Scope R_scope.

(** The fit takes data exactly if all are as many as the redshifts and the errors have that many rows; the errors need the bands of both colors. *)
Theorem C193_sizes n sizes shape j k : (make n sizes shape j k = Ok tt <-> (forall s, In s sizes -> s = n) /\ exists c, shape = [n; c] /\ (S j < c)%nat /\ (S k < c)%nat) /\
  (make n sizes shape j k = Err IndexError <-> (forall s, In s sizes -> s = n) /\ exists c, shape = [n; c] /\ (c <= S j \/ c <= S k)%nat) /\
  (make n sizes shape j k = Err ValueError <-> (exists s, In s sizes /\ s <> n) \/ ~ (exists c, shape = [n; c])).
Proof.
  unfold make. destruct (forallb (Nat.eqb n) sizes) eqn:F; cbn [negb].
  - assert (A : forall s, In s sizes -> s = n) by (intros s I; rewrite forallb_forall in F; apply F, Nat.eqb_eq in I; congruence).
    destruct shape as [|r [|c [|x t]]].
    1, 2, 4: (split; [split; [discriminate|intros [_ (c0 & E & _)]; discriminate]|]; split; [split; [discriminate|intros [_ (c0 & E & _)]; discriminate]|]; split; [intros _; right; intros [c0 E]; discriminate|reflexivity]).
    destruct (Nat.eqb_spec r n) as [->|N]; cbn [negb].
    + destruct (Nat.ltb_spec (S j) c), (Nat.ltb_spec (S k) c); cbn [andb].
      all: split; [split; [first [discriminate | (intros _; split; [exact A|exists c; auto])]|intros [_ (c0 & E & K)]; first [reflexivity | (injection E as <-; lia)]]|].
      all: split; [split; [first [discriminate | (intros _; split; [exact A|exists c; auto])]|intros [_ (c0 & E & K)]; first [reflexivity | (injection E as <-; lia)]]|].
      all: split; [discriminate|]; intros [(s & I & K)|K]; [apply A in I; congruence|exfalso; apply K; exists c; reflexivity].
    + split; [split; [discriminate|intros [_ (c0 & E & _)]; congruence]|]. split; [split; [discriminate|intros [_ (c0 & E & _)]; congruence]|]. split; [intros _; right; intros [c0 E]; congruence|reflexivity].
  - assert (B : exists s, In s sizes /\ s <> n).
    { clear -F. induction sizes as [|s t IH]; [discriminate|]. cbn [forallb] in F. destruct (Nat.eqb_spec n s) as [->|N]; [destruct (IH F) as (x & X & Y); exists x; split; [right; exact X|exact Y]|exists s; split; [left; reflexivity|congruence]]. }
    split; [split; [discriminate|intros [A _]; destruct B as (s & I & K); apply A in I; congruence]|]. split; [split; [discriminate|intros [A _]; destruct B as (s & I & K); apply A in I; congruence]|]. split; [intros _; left; exact B|reflexivity].
Qed.
Print Assumptions C193_sizes.

(** The value of a trial is minus the likelihood plus the prior, and 100000 more exactly if at some node the covariance with the correlation of the trial
    is below the least eigenvalue in some direction; a value that is not finite is 1e11. *)
Theorem C193_value n least like f (m : cube) p : is_least n least -> (forall i, symmetric n (fun a b => m a b i)) -> o_j f <> o_k f ->
  (like p = None -> fst (call least like f (Some m) p) = 100000000000) /\
  (forall s, like p = Some s -> let base := - s + total (o_nodes f) (fun i => 1/2 * (p i / o_prior f) ^ 2) in
    ((forall i, (i < o_nodes f)%nat -> at_least n (o_mineig f) (with_correlation (o_j f) (o_k f) (p i) (fun a b => m a b i))) -> fst (call least like f (Some m) p) = base) /\
    ((exists i, (i < o_nodes f)%nat /\ ~ at_least n (o_mineig f) (with_correlation (o_j f) (o_k f) (p i) (fun a b => m a b i))) -> fst (call least like f (Some m) p) = base + 100000)).
Proof.
  intros L S D. unfold call. cbn [fst option_map]. split; [intros ->; reflexivity|]. intros s ->. set (base := - s + total _ _). set (c := write_pair _ _ _ _).
  assert (SC : forall i, symmetric n (fun a b => c a b i)).
  { intros i. apply (symmetric_ext n (with_correlation (o_j f) (o_k f) (p i) (fun a b => m a b i))); [intros x y _ _; symmetry; apply write_spec, D|apply corr_symmetric, S]. }
  assert (AC : forall i, at_least n (o_mineig f) (fun a b => c a b i) <-> at_least n (o_mineig f) (with_correlation (o_j f) (o_k f) (p i) (fun a b => m a b i))).
  { intros i. apply at_least_ext. intros x y _ _. apply write_spec, D. }
  assert (B : plain f s p = base) by (unfold plain, base, total; ring). rewrite B. pose proof (wall_iff n least f c L SC) as W. destruct (wall least f c).
  - destruct (proj1 W eq_refl) as (i & I & K). split; [intros H; exfalso; apply K, AC, H, I|reflexivity].
  - split; [reflexivity|]. intros (i & I & K). enough (false = true) by discriminate. apply W. exists i. split; [exact I|]. rewrite AC. exact K.
Qed.
Print Assumptions C193_value.
(** Without matrices there is no such condition. *)
Theorem C193_without least like f p s : like p = Some s -> call least like f None p = (- s + total (o_nodes f) (fun i => 1/2 * (p i / o_prior f) ^ 2), None).
Proof. intros E. unfold call. rewrite E. cbn [option_map]. f_equal. unfold plain, total. ring. Qed.
Print Assumptions C193_without.
(** Though each trial writes to the matrices, its value is the same whatever trials there were before. *)
Theorem C193_history n least like f (m : cube) ps p : is_least n least -> (forall i, symmetric n (fun a b => m a b i)) -> o_j f <> o_k f ->
  fst (call least like f (calls least like f (Some m) ps) p) = fst (call least like f (Some m) p).
Proof.
  intros L S D. destruct (calls_rest least like f ps D m) as (m' & -> & R). unfold call. cbn [fst option_map]. destruct (like p) as [s|]; [|reflexivity].
  rewrite (wall_ext n least f (write_pair (o_j f) (o_k f) p m) (write_pair (o_j f) (o_k f) p m') L); [reflexivity| |].
  - intros i. apply (symmetric_ext n (with_correlation (o_j f) (o_k f) (p i) (fun a b => m a b i))); [intros x y _ _; symmetry; apply write_spec, D|apply corr_symmetric, S].
  - intros a b i. symmetry. apply rest_write; assumption.
Qed.
Print Assumptions C193_history.
(** Of the matrices of the caller only the two entries of the correlation change, and they stay symmetric. *)
Theorem C193_others least like f (m : cube) ps : o_j f <> o_k f -> exists m', calls least like f (Some m) ps = Some m' /\
  (forall a b i, ~ (a = o_j f /\ b = o_k f) -> ~ (a = o_k f /\ b = o_j f) -> m' a b i = m a b i) /\ (ps <> [] -> forall i, m' (o_k f) (o_j f) i = m' (o_j f) (o_k f) i).
Proof.
  intros D. destruct (calls_rest least like f ps D m) as (m' & E & R). exists m'. split; [exact E|]. split; [exact R|]. intros N i. destruct (exists_last N) as (t & q & ->).
  unfold calls in E. rewrite fold_left_app in E. cbn [fold_left] in E. fold (calls least like f (Some m) t) in E. destruct (calls_rest least like f t D m) as (m1 & E1 & _). rewrite E1 in E. injection E as <-.
  rewrite !write_spec by exact D. unfold with_correlation. rewrite !Nat.eqb_refl. cbn [andb orb]. rewrite orb_true_r. reflexivity.
Qed.
Print Assumptions C193_others.
(** Finding: the matrices of the caller are left with the correlations of the last trial, which are those of the answer only if the optimiser tried the answer last (with differences for the gradient, it does not). *)
Theorem C193_left_refuted least like f (m : cube) ps q i : o_j f <> o_k f -> 0 < m (o_j f) (o_j f) i -> 0 < m (o_k f) (o_k f) i ->
  exists m', calls least like f (Some m) (ps ++ [q]) = Some m' /\ forall r, m' (o_j f) (o_k f) i = r * sqrt (m (o_j f) (o_j f) i) * sqrt (m (o_k f) (o_k f) i) <-> q i = r.
Proof.
  intros D J K. destruct (calls_rest least like f ps D m) as (m1 & E1 & R). exists (write_pair (o_j f) (o_k f) q m1). split.
  { unfold calls. rewrite fold_left_app. cbn [fold_left]. fold (calls least like f (Some m) ps). rewrite E1. reflexivity. }
  intros r. rewrite write_spec by exact D. unfold with_correlation. rewrite !Nat.eqb_refl. cbn [andb orb]. rewrite !R by (intros [? ?]; congruence).
  pose proof (sqrt_lt_R0 _ J) as SJ. pose proof (sqrt_lt_R0 _ K) as SK. split; [|intros ->; reflexivity]. intros H. apply Rmult_eq_reg_r in H; [|lra]. apply Rmult_eq_reg_r in H; [exact H|lra].
Qed.
Print Assumptions C193_left_refuted.
Lemma C193_two_at_least a r : 0 <= a 0%nat 0%nat -> 0 <= a 1%nat 1%nat -> -1 <= r <= 1 -> at_least 2 0 (with_correlation 0 1 r a).
Proof.
  intros A B R v. rewrite Rmult_0_l. unfold variance, total, with_correlation. cbn [seq map fold_right Nat.eqb andb orb]. set (x := sqrt (a 0%nat 0%nat)). set (y := sqrt (a 1%nat 1%nat)).
  assert (X : a 0%nat 0%nat = x * x) by (symmetry; apply sqrt_sqrt, A). assert (Y : a 1%nat 1%nat = y * y) by (symmetry; apply sqrt_sqrt, B). rewrite X, Y. set (u := x * v 0%nat). set (w := y * v 1%nat).
  match goal with |- 0 <= ?e => replace e with ((u + r * w) * (u + r * w) + (1 - r * r) * (w * w)) by (unfold u, w; ring) end.
  apply Rplus_le_le_0_compat; [apply Rle_0_sqr|]. apply Rmult_le_pos; [nra|apply Rle_0_sqr].
Qed.
(** With two colors, and a least eigenvalue of zero, no trial with correlations from -1 to 1 is beyond the wall. *)
Theorem C193_two least like nodes prior (m : cube) p s : is_least 2 least -> (forall i, symmetric 2 (fun a b => m a b i)) -> (forall i, 0 <= m 0%nat 0%nat i /\ 0 <= m 1%nat 1%nat i) ->
  (forall i, (i < nodes)%nat -> -1 <= p i <= 1) -> like p = Some s -> fst (call least like (mkOfit 0 1 nodes prior 0) (Some m) p) = - s + total nodes (fun i => 1/2 * (p i / prior) ^ 2).
Proof.
  intros L S D P E. destruct (C193_value 2 least like (mkOfit 0 1 nodes prior 0) m p L S) as [_ V]; [discriminate|]. destruct (V s E) as [V1 _]. apply V1. intros i I. cbn [o_mineig o_j o_k].
  apply C193_two_at_least; [apply D|apply D|apply P, I].
Qed.
Print Assumptions C193_two.
(** Finding: with three colors the limits of 0.9 on each correlation do not make a covariance: after 0.9 with the second color for both, -0.9 between the first and the third is beyond
    the wall, so whether a correlation can be found depends on the order of the fits. *)
Theorem C193_three_refuted least like prior s : is_least 3 least -> like (fun _ => -9/10) = Some s -> let one i j := if Nat.eqb i j then 1 else 0 in
  let m := fun i j (_ : nat) => with_correlation 1 2 (9/10) (with_correlation 0 1 (9/10) one) i j in
  fst (call least like (mkOfit 0 2 1 prior 0) (Some m) (fun _ => -9/10)) = - s + total 1 (fun _ => 1/2 * (-9/10 / prior) ^ 2) + 100000.
Proof.
  intros L E one m. destruct (C193_value 3 least like (mkOfit 0 2 1 prior 0) m (fun _ => -9/10) L) as [_ V]; [|discriminate|].
  { intros n. unfold m. do 2 apply corr_symmetric. intros i j _ _. unfold one. rewrite Nat.eqb_sym. reflexivity. }
  destruct (V s E) as [_ V2]. apply V2. exists 0%nat. split; [apply Nat.lt_0_1|]. cbn [o_mineig o_j o_k]. unfold m, one.
  intros H. specialize (H (fun i => match i with 1%nat => -1 | _ => 1 end)). revert H. unfold square, variance, total, with_correlation. cbn [seq map fold_right Nat.eqb andb orb pow]. rewrite sqrt_1. lra.
Qed.
Print Assumptions C193_three_refuted.
(** there is a least eigenvalue of matrices of one row *)
Example C193_ex : is_least 1 (fun a => a 0%nat 0%nat) /\ make 3 [3; 3; 3; 3; 3; 3]%nat [3; 5]%nat 0 2 = Ok tt /\ make 3 [3; 3; 3; 3; 3; 3]%nat [3; 3]%nat 0 2 = Err IndexError /\
  fst (call (fun a => a 0%nat 0%nat) (fun _ => Some 2) (mkOfit 0 1 1 1 0) None (fun _ => 1/2)) = -15/8.
Proof.
  split; [|split; [reflexivity|split; [reflexivity|unfold call, plain; cbn; lra]]]. intros a m _. unfold at_least, square, variance, total. cbn [seq map fold_right]. split.
  - intros H v. assert (0 <= v 0%nat * v 0%nat) by apply Rle_0_sqr. nra.
  - intros H. specialize (H (fun _ => 1)). cbv beta in H. lra.
Qed.
