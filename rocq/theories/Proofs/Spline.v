(** Lemmas for Props/Spline.v. *)
From Coq Require Import Reals Lra.
From Verif.Base Require Import Py.
From Verif.Model Require Import BkgGen Spline.
From Verif.Proofs Require Import Radii.
From Verif.Spec Require Import Spline.
From Coq Require Import Lia List.
Local Open Scope R_scope.

(** * The solver *)
Definition supd (m : band) (n i : nat) : R := if Nat.ltb (i + 1) n then mat0 m (i + 1) else 0.
Definition subd (m : band) (i : nat) : R := match i with O => 0 | S j => mat2 m j end.
Definition dominant (m : band) (n : nat) : Prop := forall i, (i < n)%nat -> Rabs (subd m i) + Rabs (supd m n i) < Rabs (mat1 m i).
Definition row (m : band) (n : nat) (bb u : nat -> R) (i : nat) : Prop :=
  match i with O => 0 | S j => mat2 m j * u j end + mat1 m i * u i + (if Nat.ltb (i + 1) n then mat0 m (i + 1) * u (i + 1)%nat else 0) = bb i.

Lemma sweep_S m bb k i n : (i + S k = n)%nat -> sweep m bb (S k) i =
  let '(al, be) := sweep m bb k (S i) in (- subd m i / (mat1 m i + supd m n i * al), (bb i - supd m n i * be) / (mat1 m i + supd m n i * al)).
Proof.
  intros H. cbn [sweep]. destruct (sweep m bb k (S i)) as [al be]. unfold supd, subd. destruct k as [|k].
  - rewrite (proj2 (Nat.ltb_ge _ _)) by lia. reflexivity.
  - rewrite (proj2 (Nat.ltb_lt _ _)) by lia. replace (i + 1)%nat with (S i) by lia. reflexivity.
Qed.
Lemma sweep_small m bb n : dominant m n -> forall k i, (i + k = n)%nat -> Rabs (fst (sweep m bb k i)) < 1 /\
  (forall k', k = S k' -> mat1 m i + supd m n i * fst (sweep m bb k' (S i)) <> 0).
Proof.
  intros D. induction k as [|k IH]; intros i H; [cbn; rewrite Rabs_R0; split; [lra|discriminate]|].
  destruct (IH (S i) ltac:(lia)) as [A _]. specialize (D i ltac:(lia)).
  rewrite (sweep_S m bb k i n H). destruct (sweep m bb k (S i)) as [al be] eqn:E. cbn [fst] in *.
  assert (Q : Rabs (subd m i) < Rabs (mat1 m i + supd m n i * al)).
  { pose proof (Rabs_triang_inv (mat1 m i) (- (supd m n i * al))) as T. rewrite Rabs_Ropp, Rabs_mult in T. unfold Rminus in T. rewrite Ropp_involutive in T.
    pose proof (Rabs_pos (supd m n i)). assert (Rabs (supd m n i) * Rabs al <= Rabs (supd m n i)) by (rewrite <- Rmult_1_r; apply Rmult_le_compat_l; lra). lra. }
  assert (N : mat1 m i + supd m n i * al <> 0) by (intros C; rewrite C, Rabs_R0 in Q; pose proof (Rabs_pos (subd m i)); lra).
  split.
  - unfold Rdiv. rewrite Rabs_mult, Rabs_Ropp, Rabs_inv. apply Rabs_pos_lt in N. apply (Rmult_lt_reg_r _ _ _ N). rewrite Rmult_assoc, Rinv_l by lra. lra.
  - intros k' K. injection K as <-. rewrite E. exact N.
Qed.
Lemma solve_next n m bb i : (S i < n)%nat -> solve_banded n m bb (S i) = fst (sweep m bb (n - S i) (S i)) * solve_banded n m bb i + snd (sweep m bb (n - S i) (S i)).
Proof. reflexivity. Qed.
Lemma solve_row n m bb i : dominant m n -> (i < n)%nat -> row m n bb (solve_banded n m bb) i.
Proof.
  intros D Hi. unfold row. set (u := solve_banded n m bb).
  assert (K : exists k, (n - i)%nat = S k) by (exists (n - i - 1)%nat; lia). destruct K as (k & K).
  pose proof (sweep_small m bb n D (S k) i ltac:(lia)) as [_ N]. specialize (N k eq_refl).
  assert (U : u i = fst (sweep m bb (S k) i) * (match i with O => 0 | S j => u j end) + snd (sweep m bb (S k) i)).
  { destruct i as [|j]; [unfold u; cbn [solve_banded]; replace n with (S k) by lia; rewrite Rmult_0_r, Rplus_0_l; reflexivity|]. unfold u at 1. rewrite solve_next by exact Hi. rewrite K. reflexivity. }
  rewrite (sweep_S m bb k i n ltac:(lia)) in U.
  assert (V : (if Nat.ltb (i + 1) n then mat0 m (i + 1) * u (i + 1)%nat else 0) = supd m n i * (fst (sweep m bb k (S i)) * u i + snd (sweep m bb k (S i)))).
  { unfold supd. destruct (Nat.ltb (i + 1) n) eqn:E; [|ring]. apply Nat.ltb_lt in E. replace (i + 1)%nat with (S i) by lia. unfold u at 1. rewrite solve_next by lia. replace (n - S i)%nat with k by lia. reflexivity. }
  rewrite V. destruct (sweep m bb k (S i)) as [al be]. cbn [fst snd] in *. set (s := supd m n i) in *. set (d := mat1 m i) in *.
  assert (W : match i with O => 0 | S j => mat2 m j * u j end = subd m i * match i with O => 0 | S j => u j end) by (unfold subd; destruct i; ring).
  rewrite W. rewrite U. set (p := match i with O => 0 | S j => u j end). field. exact N.
Qed.
Lemma rows_form n m bb u : dominant m n -> (forall i, (i < n)%nat -> row m n bb u i) ->
  forall k i, (i + S k = n)%nat -> u i = fst (sweep m bb (S k) i) * match i with O => 0 | S j => u j end + snd (sweep m bb (S k) i).
Proof.
  intros D R. induction k as [|k IH]; intros i H.
  - pose proof (sweep_small m bb n D 1 i H) as [_ N]. specialize (N 0%nat eq_refl). rewrite (sweep_S m bb 0 i n H). cbn [sweep fst snd] in *.
    specialize (R i ltac:(lia)). unfold row in R. rewrite (proj2 (Nat.ltb_ge _ _)) in R by lia. unfold supd in *. rewrite (proj2 (Nat.ltb_ge _ _)) in * by lia.
    rewrite Rmult_0_l, Rplus_0_r in *. assert (W : match i with O => 0 | S j => mat2 m j * u j end = subd m i * match i with O => 0 | S j => u j end) by (unfold subd; destruct i; ring).
    rewrite W in R. apply (Rmult_eq_reg_l (mat1 m i)); [|exact N]. set (p := match i with O => 0 | S j => u j end) in *. transitivity (bb i - subd m i * p); [lra|]. field. exact N.
  - pose proof (sweep_small m bb n D (S (S k)) i H) as [_ N]. specialize (N (S k) eq_refl). rewrite (sweep_S m bb (S k) i n H).
    specialize (IH (S i) ltac:(lia)). cbn iota in IH. destruct (sweep m bb (S k) (S i)) as [al be]. cbn [fst snd] in *.
    specialize (R i ltac:(lia)). unfold row in R. assert (E : Nat.ltb (i + 1) n = true) by (apply Nat.ltb_lt; lia). unfold supd in *. rewrite E in *. replace (i + 1)%nat with (S i) in * by lia.
    assert (W : match i with O => 0 | S j => mat2 m j * u j end = subd m i * match i with O => 0 | S j => u j end) by (unfold subd; destruct i; ring).
    rewrite W, IH in R. set (p := match i with O => 0 | S j => u j end) in *. apply (Rmult_eq_reg_l (mat1 m i + mat0 m (S i) * al)); [|exact N].
    transitivity (bb i - mat0 m (S i) * be - subd m i * p); [lra|]. field. exact N.
Qed.
Lemma solve_unique n m bb u : dominant m n -> (forall i, (i < n)%nat -> row m n bb u i) -> forall i, (i < n)%nat -> u i = solve_banded n m bb i.
Proof.
  intros D R. induction i as [|i IH]; intros H.
  - destruct n as [|k]; [lia|]. rewrite (rows_form (S k) m bb u D R k 0 eq_refl). cbn [solve_banded]. rewrite Rmult_0_r, Rplus_0_l. reflexivity.
  - rewrite solve_next by exact H. rewrite <- IH by lia. destruct (n - S i)%nat as [|k] eqn:K; [lia|]. apply (rows_form n m bb u D R k (S i)). lia.
Qed.

(** * The matrix *)
Section Grid.
Variables (n : nat) (x : nat -> R).
Hypothesis Hn : (2 <= n)%nat.
Hypothesis Hx : forall i, (i + 1 < n)%nat -> x i < x (i + 1)%nat.

Ltac nb := repeat match goal with
  | |- context[Nat.ltb ?a ?b] => first [rewrite (proj2 (Nat.ltb_lt a b)) by lia | rewrite (proj2 (Nat.ltb_ge a b)) by lia]
  | |- context[Nat.leb ?a ?b] => first [rewrite (proj2 (Nat.leb_le a b)) by lia | rewrite (proj2 (Nat.leb_gt a b)) by lia]
  | |- context[Nat.eqb ?a ?b] => first [rewrite (proj2 (Nat.eqb_eq a b)) by lia | rewrite (proj2 (Nat.eqb_neq a b)) by lia]
  end; cbn [andb orb].

Lemma spline_dominant : dominant (spline_mat n x) n.
Proof.
  intros i Hi. unfold supd, subd. destruct i as [|j].
  - cbn [spline_mat mat1 mat0]. replace (0 + 1)%nat with 1%nat by lia. nb. rewrite Rabs_R0, Rabs_R1. lra.
  - destruct (Nat.eq_dec (S j + 1) n) as [E|E].
    + cbn [spline_mat mat1 mat2 mat0]. nb. rewrite Rabs_R0, Rabs_R1. lra.
    + cbn [spline_mat mat1 mat2 mat0]. nb. replace (S j + 1 - 1)%nat with (S j) by lia. replace (S j - 1)%nat with j by lia. replace (j + 1)%nat with (S j) by lia.
      pose proof (Hx j ltac:(lia)) as A. replace (j + 1)%nat with (S j) in A by lia. pose proof (Hx (S j) ltac:(lia)) as B.
      rewrite !Rabs_right; lra.
Qed.
(** the rows of the natural spline *)
Lemma row_iff bb u i : (i < n)%nat -> (row (spline_mat n x) n bb u i <->
  if Nat.eqb i 0 || Nat.eqb i (n - 1) then u i = bb i
  else (x i - x (i - 1)%nat) / 6 * u (i - 1)%nat + (x (i + 1)%nat - x (i - 1)%nat) / 3 * u i + (x (i + 1)%nat - x i) / 6 * u (i + 1)%nat = bb i).
Proof.
  intros Hi. unfold row. destruct i as [|j].
  - cbn [Nat.eqb orb]. cbn [spline_mat mat1 mat0]. replace (0 + 1)%nat with 1%nat by lia. nb. lra.
  - destruct (Nat.eq_dec (S j + 1) n) as [E|E].
    + nb. cbn [spline_mat mat1 mat2 mat0]. nb. lra.
    + nb. cbn [spline_mat mat1 mat2 mat0]. nb. replace (S j + 1 - 1)%nat with (S j) by lia. replace (S j - 1)%nat with j by lia. replace (j + 1)%nat with (S j) by lia. tauto.
Qed.

(** * The interval *)
Lemma inc i j : (i < j)%nat -> (j < n)%nat -> x i < x j.
Proof. intros H K. induction j as [|j IH]; [lia|]. pose proof (Hx j ltac:(lia)) as A. replace (j + 1)%nat with (S j) in A by lia. destruct (Nat.eq_dec i j) as [->|N]; [exact A|]. specialize (IH ltac:(lia) ltac:(lia)). lra. Qed.
Lemma inc_le i j : (i <= j)%nat -> (j < n)%nat -> x i <= x j.
Proof. intros H K. destruct (Nat.eq_dec i j) as [->|N]; [lra|]. apply Rlt_le, inc; lia. Qed.
Lemma below_spec v : forall k, (k <= n)%nat -> (below x k v <= k)%nat /\ forall i, (i < k)%nat -> (x i < v <-> (i < below x k v)%nat).
Proof.
  induction k as [|k IH]; intros Hk; [cbn; split; [lia|intros; lia]|]. destruct (IH ltac:(lia)) as [A B]. cbn [below]. destruct (Rltb (x k) v) eqn:E.
  - apply Rltb_iff in E. assert (below x k v = k). { destruct k as [|k']; [cbn in *; lia|]. assert (x k' < v) by (pose proof (inc k' (S k') ltac:(lia) ltac:(lia)); lra). apply B in H; lia. }
    rewrite H. split; [lia|]. intros i Hi. split; [intros; lia|intros _]. pose proof (inc_le i k ltac:(lia) ltac:(lia)). lra.
  - apply Rltb_not in E. split; [lia|]. intros i Hi. rewrite Nat.add_0_r. destruct (Nat.eq_dec i k) as [->|N]; [|apply B; lia]. split; [intros; lra|intros; lia].
Qed.
Lemma interval_spec v : let i := interval x n v in (i + 1 < n)%nat /\ (i = 0%nat \/ x i < v) /\ ((i + 2 = n)%nat \/ v <= x (i + 1)%nat).
Proof.
  cbv zeta. unfold interval. destruct (below_spec v n ltac:(lia)) as [A B]. set (b := below x n v) in *. split; [lia|]. split.
  - destruct (Nat.eq_dec (Nat.min (b - 1) (n - 2)) 0) as [E|E]; [left; exact E|right]. apply B; lia.
  - destruct (Nat.eq_dec (Nat.min (b - 1) (n - 2) + 2) n) as [E|E]; [left; exact E|right]. apply Rnot_lt_le. intros C. apply B in C; lia.
Qed.
Lemma interval_unique v i : (i + 1 < n)%nat -> (i = 0%nat \/ x i < v) -> ((i + 2 = n)%nat \/ v <= x (i + 1)%nat) -> interval x n v = i.
Proof.
  intros H L U. destruct (interval_spec v) as (H' & L' & U'). set (j := interval x n v) in *.
  destruct (Nat.lt_trichotomy i j) as [C|[C|C]]; [exfalso|auto|exfalso].
  - destruct L' as [L'|L']; [lia|]. destruct U as [U|U]; [lia|]. pose proof (inc_le (i + 1) j ltac:(lia) ltac:(lia)). lra.
  - destruct L as [L|L]; [lia|]. destruct U' as [U'|U']; [lia|]. pose proof (inc_le (j + 1) i ltac:(lia) ltac:(lia)). lra.
Qed.

(** * Pieces glued together *)
Section Glue.
Variable (P P' : nat -> R -> R).
Hypothesis HP : forall i v, (i + 1 < n)%nat -> derivable_pt_lim (P i) v (P' i v).
Hypothesis H0 : forall i, (i + 2 < n)%nat -> P i (x (i + 1)%nat) = P (i + 1)%nat (x (i + 1)%nat).
Definition glued (v : R) : R := P (interval x n v) v.
Lemma glued_eq v i : (i + 1 < n)%nat -> (i = 0%nat \/ x i <= v) -> ((i + 2 = n)%nat \/ v <= x (i + 1)%nat) -> glued v = P i v.
Proof.
  intros H L U. destruct i as [|i]; [unfold glued; rewrite (interval_unique v 0); auto; destruct L; auto|]. destruct L as [L|L]; [lia|].
  destruct (Rle_lt_or_eq_dec _ _ L) as [L'|L']; [unfold glued; rewrite (interval_unique v (S i)); auto|].
  unfold glued. replace (S i) with (i + 1)%nat in * by lia. rewrite (interval_unique v i); [|lia| |right; lra].
  - rewrite <- L'. apply H0. lia.
  - right. rewrite <- L'. apply Hx. lia.
Qed.
Lemma glued_sides v : let i := interval x n v in
  (exists d, 0 < d /\ forall h, - d < h <= 0 -> glued (v + h) = P i (v + h)) /\
  (exists d j, 0 < d /\ (j + 1 < n)%nat /\ P j v = P i v /\ forall h, 0 <= h < d -> glued (v + h) = P j (v + h)).
Proof.
  destruct (interval_spec v) as (H & L & U). cbv zeta. set (i := interval x n v) in *. split.
  - destruct L as [L|L].
    + exists 1. split; [lra|]. intros h Hh. apply glued_eq; [exact H|left; exact L|]. destruct U as [U|U]; [left; exact U|right; lra].
    + exists (v - x i). split; [lra|]. intros h Hh. apply glued_eq; [exact H|right; lra|]. destruct U as [U|U]; [left; exact U|right; lra].
  - destruct U as [U|U].
    + exists 1, i. repeat split; auto; try lra. intros h Hh. apply glued_eq; [exact H| |left; exact U]. destruct L as [L|L]; [left; exact L|right; lra].
    + destruct (Rle_lt_or_eq_dec _ _ U) as [U'|U'].
      * exists (x (i + 1)%nat - v), i. repeat split; auto; try lra. intros h Hh. apply glued_eq; [exact H| |right; lra]. destruct L as [L|L]; [left; exact L|right; lra].
      * destruct (Nat.eq_dec (i + 2) n) as [E|E].
        -- exists 1, i. repeat split; auto; try lra. intros h Hh. apply glued_eq; [exact H| |left; exact E]. destruct L as [L|L]; [left; exact L|right; lra].
        -- assert (K : (i + 2 < n)%nat) by lia. exists (x (i + 2)%nat - x (i + 1)%nat), (i + 1)%nat. pose proof (Hx (i + 1) ltac:(lia)) as Hd. replace (i + 1 + 1)%nat with (i + 2)%nat in Hd by lia.
           repeat split; [lra|lia|rewrite U'; symmetry; apply H0, K|]. intros h Hh. apply glued_eq; [lia|right; lra|right]. replace (i + 1 + 1)%nat with (i + 2)%nat by lia. lra.
Qed.
Lemma glued_continuous : continuity glued.
Proof.
  intros v. destruct (glued_sides v) as [(d1 & D1 & E1) (d2 & j & D2 & Hj & E0 & E2)]. destruct (interval_spec v) as (H & _ & _). set (i := interval x n v) in *.
  assert (C1 : continuity_pt (P i) v) by (apply derivable_continuous_pt; exists (P' i v); apply HP, H).
  assert (C2 : continuity_pt (P j) v) by (apply derivable_continuous_pt; exists (P' j v); apply HP, Hj).
  intros eps He. destruct (C1 eps He) as (e1 & P1 & F1). destruct (C2 eps He) as (e2 & P2 & F2).
  exists (Rmin (Rmin d1 d2) (Rmin e1 e2)). split; [repeat apply Rmin_pos; assumption|]. intros w [Hw Ha]. cbn in Ha. unfold R_dist in Ha.
  assert (A1 : Rabs (w - v) < d1) by (eapply Rlt_le_trans; [exact Ha|]; eapply Rle_trans; apply Rmin_l).
  assert (A2 : Rabs (w - v) < d2) by (eapply Rlt_le_trans; [exact Ha|]; eapply Rle_trans; [apply Rmin_l|apply Rmin_r]).
  assert (A3 : Rabs (w - v) < e1) by (eapply Rlt_le_trans; [exact Ha|]; eapply Rle_trans; [apply Rmin_r|apply Rmin_l]).
  assert (A4 : Rabs (w - v) < e2) by (eapply Rlt_le_trans; [exact Ha|]; eapply Rle_trans; apply Rmin_r).
  apply Rabs_def2 in A1. apply Rabs_def2 in A2. assert (Gv : glued v = P i v) by reflexivity. assert (Ew : v + (w - v) = w) by lra.
  destruct (Rle_lt_dec (w - v) 0) as [S|S].
  - assert (Q : glued w = P i w) by (rewrite <- Ew; apply E1; lra). rewrite Q, Gv. apply (F1 w). split; [exact Hw|exact A3].
  - assert (Q : glued w = P j w) by (rewrite <- Ew; apply E2; lra). rewrite Q, Gv, <- E0. apply (F2 w). split; [exact Hw|exact A4].
Qed.
Hypothesis H1 : forall i, (i + 2 < n)%nat -> P' i (x (i + 1)%nat) = P' (i + 1)%nat (x (i + 1)%nat).
Lemma glued_derivable v : derivable_pt_lim glued v (P' (interval x n v) v).
Proof.
  destruct (interval_spec v) as (H & L & U). set (i := interval x n v) in *.
  assert (Gi : glued v = P i v) by reflexivity.
  (* to the left *)
  assert (LE : exists d, 0 < d /\ forall h, - d < h <= 0 -> glued (v + h) = P i (v + h)).
  { destruct L as [L|L].
    - exists 1. split; [lra|]. intros h Hh. apply glued_eq; [exact H|left; exact L|]. destruct U as [U|U]; [left; exact U|right; lra].
    - exists (v - x i). split; [lra|]. intros h Hh. apply glued_eq; [exact H|right; lra|]. destruct U as [U|U]; [left; exact U|right; lra]. }
  assert (RI : exists d j, 0 < d /\ (j + 1 < n)%nat /\ P j v = P i v /\ P' j v = P' i v /\ forall h, 0 <= h < d -> glued (v + h) = P j (v + h)).
  { destruct U as [U|U].
    - exists 1, i. repeat split; auto; try lra. intros h Hh. apply glued_eq; [exact H| |left; exact U]. destruct L as [L|L]; [left; exact L|right; lra].
    - destruct (Rle_lt_or_eq_dec _ _ U) as [U'|U'].
      + exists (x (i + 1)%nat - v), i. repeat split; auto; try lra. intros h Hh. apply glued_eq; [exact H| |right; lra]. destruct L as [L|L]; [left; exact L|right; lra].
      + destruct (Nat.eq_dec (i + 2) n) as [E|E].
        * exists 1, i. repeat split; auto; try lra. intros h Hh. apply glued_eq; [exact H| |left; exact E]. destruct L as [L|L]; [left; exact L|right; lra].
        * assert (K : (i + 2 < n)%nat) by lia. exists (x (i + 2)%nat - x (i + 1)%nat), (i + 1)%nat. pose proof (Hx (i + 1) ltac:(lia)) as Hd. replace (i + 1 + 1)%nat with (i + 2)%nat in Hd by lia.
          repeat split; [lra|lia|rewrite U'; symmetry; apply H0, K|rewrite U'; symmetry; apply H1, K|]. intros h Hh. apply glued_eq; [lia|right; lra|right]. replace (i + 1 + 1)%nat with (i + 2)%nat by lia. lra. }
  destruct LE as (d1 & D1 & E1), RI as (d2 & j & D2 & Hj & E0 & EP & E2).
  intros eps He. destruct (HP i v H eps He) as (e1 & F1). destruct (HP j v Hj eps He) as (e2 & F2).
  assert (Hd : 0 < Rmin (Rmin d1 d2) (Rmin e1 e2)) by (repeat apply Rmin_pos; auto; apply cond_pos).
  exists (mkposreal _ Hd). intros h Hh Ha. cbn [pos] in Ha.
  assert (A1 : Rabs h < d1) by (eapply Rlt_le_trans; [exact Ha|]; eapply Rle_trans; apply Rmin_l).
  assert (A2 : Rabs h < d2) by (eapply Rlt_le_trans; [exact Ha|]; eapply Rle_trans; [apply Rmin_l|apply Rmin_r]).
  assert (A3 : Rabs h < e1) by (eapply Rlt_le_trans; [exact Ha|]; eapply Rle_trans; [apply Rmin_r|apply Rmin_l]).
  assert (A4 : Rabs h < e2) by (eapply Rlt_le_trans; [exact Ha|]; eapply Rle_trans; apply Rmin_r).
  apply Rabs_def2 in A1. apply Rabs_def2 in A2. destruct (Rle_lt_dec h 0) as [S|S].
  - rewrite E1 by lra. rewrite Gi. apply F1; assumption.
  - rewrite E2 by lra. rewrite Gi, <- E0, <- EP. apply F2; assumption.
Qed.
End Glue.

(** * The pieces of the spline *)
Variables (y m : nat -> R).
Definition piece1 (lo : nat) (v : R) : R :=
  let dx := x (lo + 1)%nat - x lo in let a := (x (lo + 1)%nat - v) / dx in let b := (v - x lo) / dx in
  (y (lo + 1)%nat - y lo) / dx + (- (3 * a ^ 2 - 1) * m lo + (3 * b ^ 2 - 1) * m (lo + 1)%nat) * dx / 6.
Definition piece2 (lo : nat) (v : R) : R :=
  let dx := x (lo + 1)%nat - x lo in (x (lo + 1)%nat - v) / dx * m lo + (v - x lo) / dx * m (lo + 1)%nat.
Definition piece3 (lo : nat) (v : R) : R := (m (lo + 1)%nat - m lo) / (x (lo + 1)%nat - x lo).
(** cubic polynomials and their derivatives *)
Lemma cubic_lim c0 c1 c2 c3 v : derivable_pt_lim (fun t => c0 + c1 * t + c2 * t ^ 2 + c3 * t ^ 3) v (c1 + 2 * c2 * v + 3 * c3 * v ^ 2).
Proof.
  assert (H : derivable_pt_lim ((((fct_cte c0) + (mult_real_fct c1 id)) + (mult_real_fct c2 (fun t => t ^ 2))) + (mult_real_fct c3 (fun t => t ^ 3)))%F v
    (0 + c1 * 1 + c2 * (INR 2 * v ^ pred 2) + c3 * (INR 3 * v ^ pred 3))).
  { repeat apply derivable_pt_lim_plus; try apply derivable_pt_lim_scal; try apply derivable_pt_lim_pow; [apply derivable_pt_lim_const|apply derivable_pt_lim_id]. }
  replace (c1 + 2 * c2 * v + 3 * c3 * v ^ 2) with (0 + c1 * 1 + c2 * (INR 2 * v ^ pred 2) + c3 * (INR 3 * v ^ pred 3)) by (cbn; ring).
  exact H.
Qed.
Lemma lim_ext f g v l : (forall t, f t = g t) -> derivable_pt_lim f v l -> derivable_pt_lim g v l.
Proof. intros E H eps He. destruct (H eps He) as (d & K). exists d. intros h A B. rewrite <- !E. apply K; assumption. Qed.
Lemma piece_lim i v : (i + 1 < n)%nat -> derivable_pt_lim (piece x y m i) v (piece1 i v).
Proof.
  intros Hi. pose proof (Hx i Hi). set (X0 := x i) in *. set (X1 := x (i + 1)%nat) in *. set (dx := X1 - X0). assert (dx <> 0) by (unfold dx; lra).
  set (A := y i). set (B := y (i + 1)%nat). set (M := m i). set (N := m (i + 1)%nat).
  set (c0 := (X1 * A - X0 * B) / dx + ((X1 ^ 3 / dx ^ 3 - X1 / dx) * M + (- X0 ^ 3 / dx ^ 3 + X0 / dx) * N) * dx ^ 2 / 6).
  set (c1 := (B - A) / dx + ((- 3 * X1 ^ 2 / dx ^ 3 + 1 / dx) * M + (3 * X0 ^ 2 / dx ^ 3 - 1 / dx) * N) * dx ^ 2 / 6).
  set (c2 := ((3 * X1 / dx ^ 3) * M + (- 3 * X0 / dx ^ 3) * N) * dx ^ 2 / 6).
  set (c3 := (- / dx ^ 3 * M + / dx ^ 3 * N) * dx ^ 2 / 6).
  apply (lim_ext (fun t => c0 + c1 * t + c2 * t ^ 2 + c3 * t ^ 3)).
  - intros t. unfold piece. cbv zeta. fold X0 X1 A B M N dx. unfold c0, c1, c2, c3. field. assumption.
  - replace (piece1 i v) with (c1 + 2 * c2 * v + 3 * c3 * v ^ 2); [apply cubic_lim|]. unfold piece1. cbv zeta. fold X0 X1 A B M N dx. unfold c1, c2, c3. field. assumption.
Qed.
Lemma piece1_lim i v : (i + 1 < n)%nat -> derivable_pt_lim (piece1 i) v (piece2 i v).
Proof.
  intros Hi. pose proof (Hx i Hi). set (X0 := x i) in *. set (X1 := x (i + 1)%nat) in *. set (dx := X1 - X0). assert (dx <> 0) by (unfold dx; lra).
  set (A := y i). set (B := y (i + 1)%nat). set (M := m i). set (N := m (i + 1)%nat).
  set (c0 := (B - A) / dx + ((- 3 * X1 ^ 2 / dx ^ 2 + 1) * M + (3 * X0 ^ 2 / dx ^ 2 - 1) * N) * dx / 6).
  set (c1 := ((6 * X1 / dx ^ 2) * M + (- 6 * X0 / dx ^ 2) * N) * dx / 6).
  set (c2 := (- 3 / dx ^ 2 * M + 3 / dx ^ 2 * N) * dx / 6).
  apply (lim_ext (fun t => c0 + c1 * t + c2 * t ^ 2 + 0 * t ^ 3)).
  - intros t. unfold piece1. cbv zeta. fold X0 X1 A B M N dx. unfold c0, c1, c2. field. assumption.
  - replace (piece2 i v) with (c1 + 2 * c2 * v + 3 * 0 * v ^ 2); [apply cubic_lim|]. unfold piece2. cbv zeta. fold X0 X1 M N dx. unfold c1, c2. field. assumption.
Qed.
Lemma piece2_lim i v : (i + 1 < n)%nat -> derivable_pt_lim (piece2 i) v (piece3 i v).
Proof.
  intros Hi. pose proof (Hx i Hi). set (X0 := x i) in *. set (X1 := x (i + 1)%nat) in *. set (dx := X1 - X0). assert (dx <> 0) by (unfold dx; lra). set (M := m i). set (N := m (i + 1)%nat).
  apply (lim_ext (fun t => (X1 * M - X0 * N) / dx + ((N - M) / dx) * t + 0 * t ^ 2 + 0 * t ^ 3)).
  - intros t. unfold piece2. cbv zeta. fold X0 X1 M N dx. field. assumption.
  - replace (piece3 i v) with ((N - M) / dx + 2 * 0 * v + 3 * 0 * v ^ 2); [apply cubic_lim|]. unfold piece3. fold X0 X1 M N dx. field. assumption.
Qed.
Lemma piece_lo i : (i + 1 < n)%nat -> piece x y m i (x i) = y i.
Proof. intros Hi. pose proof (Hx i Hi). unfold piece. cbv zeta. field. lra. Qed.
Lemma piece_hi i : (i + 1 < n)%nat -> piece x y m i (x (i + 1)%nat) = y (i + 1)%nat.
Proof. intros Hi. pose proof (Hx i Hi). unfold piece. cbv zeta. field. lra. Qed.
Lemma piece2_lo i : (i + 1 < n)%nat -> piece2 i (x i) = m i.
Proof. intros Hi. pose proof (Hx i Hi). unfold piece2. cbv zeta. field. lra. Qed.
Lemma piece2_hi i : (i + 1 < n)%nat -> piece2 i (x (i + 1)%nat) = m (i + 1)%nat.
Proof. intros Hi. pose proof (Hx i Hi). unfold piece2. cbv zeta. field. lra. Qed.
Lemma glue0 i : (i + 2 < n)%nat -> piece x y m i (x (i + 1)%nat) = piece x y m (i + 1) (x (i + 1)%nat).
Proof. intros Hi. rewrite piece_hi, piece_lo by lia. reflexivity. Qed.
Lemma glue2 i : (i + 2 < n)%nat -> piece2 i (x (i + 1)%nat) = piece2 (i + 1) (x (i + 1)%nat).
Proof. intros Hi. rewrite piece2_hi, piece2_lo by lia. reflexivity. Qed.
Hypothesis Hm : forall i, (i < n)%nat -> row (spline_mat n x) n (spline_rhs n x y) m i.
Lemma glue1 i : (i + 2 < n)%nat -> piece1 i (x (i + 1)%nat) = piece1 (i + 1) (x (i + 1)%nat).
Proof.
  intros Hi. pose proof (Hx i ltac:(lia)) as A. pose proof (Hx (i + 1) ltac:(lia)) as B. pose proof (Hm (i + 1) ltac:(lia)) as Q. apply row_iff in Q; [|lia].
  assert (E : (Nat.eqb (i + 1) 0 || Nat.eqb (i + 1) (n - 1)) = false) by (apply orb_false_iff; split; apply Nat.eqb_neq; lia). rewrite E in Q. clear E.
  unfold spline_rhs in Q. assert (E : (Nat.leb 1 (i + 1) && Nat.ltb (i + 1 + 1) n)%bool = true) by (apply andb_true_iff; split; [apply Nat.leb_le|apply Nat.ltb_lt]; lia). rewrite E in Q. clear E.
  replace (i + 1 - 1)%nat with i in Q by lia. unfold piece1. cbv zeta.
  set (x0 := x i) in *. set (x1 := x (i + 1)%nat) in *. set (x2 := x (i + 1 + 1)%nat) in *. set (y0 := y i) in *. set (y1 := y (i + 1)%nat) in *. set (y2 := y (i + 1 + 1)%nat) in *.
  set (m0 := m i) in *. set (m1 := m (i + 1)%nat) in *. set (m2 := m (i + 1 + 1)%nat) in *.
  replace ((x1 - x1) / (x1 - x0)) with 0 by (field; lra). replace ((x1 - x0) / (x1 - x0)) with 1 by (field; lra). replace ((x2 - x1) / (x2 - x1)) with 1 by (field; lra). replace ((x1 - x1) / (x2 - x1)) with 0 by (field; lra).
  lra.
Qed.
Lemma row_ends : m 0%nat = 0 /\ m (n - 1)%nat = 0.
Proof.
  split.
  - pose proof (Hm 0 ltac:(lia)) as Q. apply row_iff in Q; [|lia]. cbn in Q. rewrite Q. reflexivity.
  - pose proof (Hm (n - 1) ltac:(lia)) as Q. apply row_iff in Q; [|lia]. rewrite Nat.eqb_refl, orb_true_r in Q. rewrite Q. unfold spline_rhs. rewrite (proj2 (Nat.ltb_ge (n - 1 + 1) n)) by lia. rewrite andb_false_r. reflexivity.
Qed.
End Grid.

(** * Banded storage *)
Definition ab_of (m : band) (r : nat) : nat -> R := match r with O => mat0 m | S O => mat1 m | _ => mat2 m end.
Lemma sum_plus n f g : sum_to n (fun j => f j + g j) = sum_to n f + sum_to n g.
Proof. induction n as [|k IH]; cbn; [ring|]. rewrite IH. ring. Qed.
Lemma sum_ext n f g : (forall j, (j < n)%nat -> f j = g j) -> sum_to n f = sum_to n g.
Proof. induction n as [|k IH]; intros H; cbn; [reflexivity|]. rewrite IH by (intros; apply H; lia). rewrite H by lia. reflexivity. Qed.
Lemma sum_ind n k g : sum_to n (fun j => if Nat.eqb j k then g else 0) = if Nat.ltb k n then g else 0.
Proof.
  induction n as [|n IH]; [reflexivity|]. cbn [sum_to]. rewrite IH. destruct (Nat.eqb n k) eqn:E.
  - apply Nat.eqb_eq in E. subst k. rewrite (proj2 (Nat.ltb_ge n n)), (proj2 (Nat.ltb_lt n (S n))) by lia. ring.
  - apply Nat.eqb_neq in E. destruct (Nat.ltb k n) eqn:F; [apply Nat.ltb_lt in F; rewrite (proj2 (Nat.ltb_lt k (S n))) by lia|apply Nat.ltb_ge in F; rewrite (proj2 (Nat.ltb_ge k (S n))) by lia]; ring.
Qed.
Lemma solution_row n m bb u i : (i < n)%nat -> (sum_to n (fun j => entry (ab_of m) i j * u j) = bb i <-> row m n bb u i).
Proof.
  intros Hi. unfold row.
  assert (E : sum_to n (fun j => entry (ab_of m) i j * u j) =
    (match i with O => 0 | S j => mat2 m j * u j end) + mat1 m i * u i + (if Nat.ltb (i + 1) n then mat0 m (i + 1) * u (i + 1)%nat else 0)).
  { transitivity (sum_to n (fun j => (if Nat.eqb j (i - 1) then match i with O => 0 | S j => mat2 m j * u j end else 0) +
      ((if Nat.eqb j i then mat1 m i * u i else 0) + (if Nat.eqb j (i + 1) then mat0 m (i + 1) * u (i + 1)%nat else 0)))).
    - apply sum_ext. intros j Hj. unfold entry. destruct (Nat.eqb j (i + 1)) eqn:E3; [apply Nat.eqb_eq in E3; subst j|apply Nat.eqb_neq in E3].
      + rewrite (proj2 (Nat.leb_le (i - (i + 1)) 1)), (proj2 (Nat.leb_le (i + 1 - i) 1)) by lia. cbn [andb]. replace (1 + i - (i + 1))%nat with 0%nat by lia.
        rewrite (proj2 (Nat.eqb_neq (i + 1) i)) by lia. rewrite (proj2 (Nat.eqb_neq (i + 1) (i - 1))) by lia. cbn [ab_of]. ring.
      + destruct (Nat.eqb j i) eqn:E2; [apply Nat.eqb_eq in E2; subst j|apply Nat.eqb_neq in E2].
        * rewrite Nat.sub_diag. cbn [Nat.leb andb]. replace (1 + i - i)%nat with 1%nat by lia. cbn [ab_of]. destruct i as [|i]; [cbn [Nat.eqb Nat.sub]; ring|]. rewrite (proj2 (Nat.eqb_neq (S i) (S i - 1))) by lia. ring.
        * destruct (Nat.eqb j (i - 1)) eqn:E1; [apply Nat.eqb_eq in E1|apply Nat.eqb_neq in E1].
          -- destruct i as [|i]; [lia|]. assert (Ej : j = i) by lia. clear E1. subst j. rewrite (proj2 (Nat.leb_le (S i - i) 1)), (proj2 (Nat.leb_le (i - S i) 1)) by lia. cbn [andb]. replace (1 + S i - i)%nat with 2%nat by lia. cbn [ab_of]. ring.
          -- destruct (Nat.leb (i - j) 1) eqn:L1; cbn [andb]; [|ring]. apply Nat.leb_le in L1. rewrite (proj2 (Nat.leb_gt (j - i) 1)) by lia. ring.
    - rewrite sum_plus, sum_plus, !sum_ind. rewrite (proj2 (Nat.ltb_lt (i - 1) n)), (proj2 (Nat.ltb_lt i n)) by lia. ring. }
  rewrite E. tauto.
Qed.
