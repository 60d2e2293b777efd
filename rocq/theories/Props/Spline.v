(** C112: the cubic splines through which all calibrated quantities are evaluated. *)
From Coq Require Import Reals Lra.
From Verif.Base Require Import Py.
From Verif.Model Require Import BkgGen Spline.
From Verif.Spec Require Import Spline.
From Verif.Proofs Require Import Radii Spline.
From Coq Require Import Lia List.
Local Open Scope R_scope.

(** C112: the linear system the code sets up has one solution only, for any increasing nodes; *)
Theorem C112_system : forall n x y, (2 <= n)%nat -> increasing n x ->
  let ab := fun r => match r with O => mat0 (spline_mat n x) | S O => mat1 (spline_mat n x) | _ => mat2 (spline_mat n x) end in
  solution n ab (spline_rhs n x y) (second_derivs n x y) /\
  forall u, solution n ab (spline_rhs n x y) u -> forall i, (i < n)%nat -> u i = second_derivs n x y i.
Proof.
  intros n x y Hn Hx ab. pose proof (spline_dominant n x Hn Hx) as D. split.
  - intros i Hi. apply (solution_row n (spline_mat n x) _ _ i Hi). apply solve_row; assumption.
  - intros u Hu. apply solve_unique; [exact D|]. intros i Hi. apply (solution_row n (spline_mat n x) _ _ i Hi). apply Hu, Hi.
Qed.
Print Assumptions C112_system.
(** the spline takes the given value at each node, *)
Theorem C112_nodes : forall fix_ n x y i, (2 <= n)%nat -> increasing n x -> (i < n)%nat -> spline fix_ n x y (x i) = y i.
Proof.
  intros fix_ n x y i Hn Hx Hi.
  assert (E : splint n x y (second_derivs n x y) (x i) = y i).
  { unfold splint. destruct (interval_spec n x Hn Hx (x i)) as (H & L & U). set (k := interval x n (x i)) in *.
    assert (K : i = k \/ i = (k + 1)%nat).
    { destruct (Nat.lt_trichotomy i k) as [C|[C|C]]; [exfalso|auto|].
      - destruct L as [L|L]; [lia|]. pose proof (inc n x Hn Hx i k C ltac:(lia)). lra.
      - right. destruct (Nat.eq_dec i (k + 1)) as [|N]; [assumption|exfalso]. destruct U as [U|U]; [lia|]. pose proof (inc n x Hn Hx (k + 1) i ltac:(lia) Hi). lra. }
    clear L U. clearbody k. destruct K as [K|K]; rewrite K; [apply (piece_lo n x Hx); exact H|apply (piece_hi n x Hx); exact H]. }
  unfold spline. rewrite E. destruct fix_; [|reflexivity].
  rewrite (proj2 (Rltb_not (x i) (x 0%nat))) by (apply (inc_le n x Hn Hx); lia). rewrite (proj2 (Rltb_not (x (n - 1)%nat) (x i))) by (apply (inc_le n x Hn Hx); lia). reflexivity.
Qed.
Print Assumptions C112_nodes.
(** and is the natural cubic spline. *)
Theorem C112_natural : forall n x y, (2 <= n)%nat -> increasing n x -> natural_cubic n x (spline false n x y).
Proof.
  intros n x y Hn Hx. pose proof (spline_dominant n x Hn Hx) as D. set (m := second_derivs n x y).
  assert (Hm : forall i, (i < n)%nat -> row (spline_mat n x) n (spline_rhs n x y) m i) by (intros i Hi; apply solve_row; assumption).
  exists (glued n x (piece1 x y m)), (glued n x (piece2 x m)). split; [|split; [|split; [|split; [|split]]]].
  - exact (glued_derivable n x Hn Hx (piece x y m) (piece1 x y m) (piece_lim n x Hx y m) (glue0 n x Hn Hx y m) (glue1 n x Hn Hx y m Hm)).
  - exact (glued_derivable n x Hn Hx (piece1 x y m) (piece2 x m) (piece1_lim n x Hx y m) (glue1 n x Hn Hx y m Hm) (glue2 n x Hn Hx m)).
  - exact (glued_continuous n x Hn Hx (piece2 x m) (piece3 x m) (piece2_lim n x Hx m) (glue2 n x Hn Hx m)).
  - intros i Hi. exists ((x (i + 1)%nat * m i - x i * m (i + 1)%nat) / (x (i + 1)%nat - x i)), ((m (i + 1)%nat - m i) / (x (i + 1)%nat - x i)). intros v Hv.
    rewrite (glued_eq n x Hn Hx (piece2 x m) (glue2 n x Hn Hx m) v i Hi) by (right; lra). unfold piece2. cbv zeta. pose proof (Hx i Hi). field. lra.
  - pose proof (row_ends n x Hn y m Hm) as [E _]. rewrite (glued_eq n x Hn Hx (piece2 x m) (glue2 n x Hn Hx m) (x 0%nat) 0) by (try lia; auto; right; apply Rlt_le, Hx; lia). rewrite (piece2_lo n x Hx m 0) by lia. exact E.
  - pose proof (row_ends n x Hn y m Hm) as [_ E]. replace (n - 1)%nat with ((n - 2) + 1)%nat in * by lia.
    rewrite (glued_eq n x Hn Hx (piece2 x m) (glue2 n x Hn Hx m) (x (n - 2 + 1)%nat) (n - 2)) by (first [lia | left; lia | right; apply Rlt_le, Hx; lia]). rewrite (piece2_hi n x Hx m (n - 2)) by lia. exact E.
Qed.
Print Assumptions C112_natural.
(** Scaling and adding node values scales and adds the splines, *)
Theorem C112_linear : forall n x y y' a b v, (2 <= n)%nat -> increasing n x ->
  spline false n x (fun i => a * y i + b * y' i) v = a * spline false n x y v + b * spline false n x y' v.
Proof.
  intros n x y y' a b v Hn Hx. pose proof (spline_dominant n x Hn Hx) as D. unfold spline.
  assert (E : forall i, (i < n)%nat -> second_derivs n x (fun i => a * y i + b * y' i) i = a * second_derivs n x y i + b * second_derivs n x y' i).
  { intros i Hi. symmetry. apply (solve_unique n (spline_mat n x) (spline_rhs n x (fun i => a * y i + b * y' i)) (fun i => a * second_derivs n x y i + b * second_derivs n x y' i) D); [|exact Hi].
    intros j Hj. pose proof (solve_row n (spline_mat n x) (spline_rhs n x y) j D Hj) as R1. pose proof (solve_row n (spline_mat n x) (spline_rhs n x y') j D Hj) as R2.
    fold (second_derivs n x y) in R1. fold (second_derivs n x y') in R2. unfold row in *.
    assert (R0 : spline_rhs n x (fun i => a * y i + b * y' i) j = a * spline_rhs n x y j + b * spline_rhs n x y' j).
    { unfold spline_rhs. destruct (Nat.leb 1 j && Nat.ltb (j + 1) n)%bool eqn:B; [|ring]. apply andb_true_iff in B. destruct B as [B1 B2]. apply Nat.leb_le in B1. apply Nat.ltb_lt in B2.
      pose proof (Hx j B2). pose proof (Hx (j - 1)%nat ltac:(lia)) as Q. replace (j - 1 + 1)%nat with j in Q by lia. field. lra. }
    rewrite R0, <- R1, <- R2. destruct j; destruct (Nat.ltb _ n); ring. }
  unfold splint, piece. destruct (interval_spec n x Hn Hx v) as (H & _ & _). cbv zeta. rewrite !E by lia. pose proof (Hx _ H). field. lra.
Qed.
Print Assumptions C112_linear.
(** and nodes on a straight line give the line, everywhere (so do two nodes). *)
Theorem C112_line : forall n x y p q v, (2 <= n)%nat -> increasing n x -> (forall i, (i < n)%nat -> y i = p + q * x i) -> spline false n x y v = p + q * v.
Proof.
  intros n x y p q v Hn Hx Hy. pose proof (spline_dominant n x Hn Hx) as D.
  assert (E : forall i, (i < n)%nat -> second_derivs n x y i = 0).
  { intros i Hi. symmetry. apply (solve_unique n (spline_mat n x) (spline_rhs n x y) (fun _ => 0) D); [|exact Hi]. intros j Hj. unfold row.
    assert (R0 : spline_rhs n x y j = 0).
    { unfold spline_rhs. destruct (Nat.leb 1 j && Nat.ltb (j + 1) n)%bool eqn:B; [|ring]. apply andb_true_iff in B. destruct B as [B1 B2]. apply Nat.leb_le in B1. apply Nat.ltb_lt in B2.
      pose proof (Hx j B2). pose proof (Hx (j - 1)%nat ltac:(lia)) as Q. replace (j - 1 + 1)%nat with j in Q by lia. rewrite !Hy by lia. field. lra. }
    rewrite R0. destruct j; destruct (Nat.ltb _ n); ring. }
  unfold spline, splint, piece. destruct (interval_spec n x Hn Hx v) as (H & _ & _). cbv zeta. rewrite !E by lia. rewrite !Hy by lia. pose proof (Hx _ H). field. lra.
Qed.
Print Assumptions C112_line.
(** With fixextrap the values outside are those of the end nodes, and inside it makes no difference. *)
Theorem C112_fixextrap : forall n x y v, (2 <= n)%nat -> increasing n x ->
  (v <= x 0%nat -> spline true n x y v = y 0%nat) /\ (x (n - 1)%nat <= v -> spline true n x y v = y (n - 1)%nat) /\
  (x 0%nat <= v <= x (n - 1)%nat -> spline true n x y v = spline false n x y v).
Proof.
  intros n x y v Hn Hx. pose proof (inc n x Hn Hx 0 (n - 1) ltac:(lia) ltac:(lia)). split; [|split]; intros Hv.
  - destruct (Rle_lt_or_eq_dec _ _ Hv) as [L| ->]; [|apply C112_nodes; auto; lia]. unfold spline. rewrite (proj2 (Rltb_iff v (x 0%nat)) L). reflexivity.
  - destruct (Rle_lt_or_eq_dec _ _ Hv) as [L| <-]; [|apply C112_nodes; auto; lia]. unfold spline. rewrite (proj2 (Rltb_not v (x 0%nat))) by lra. rewrite (proj2 (Rltb_iff (x (n - 1)%nat) v) L). reflexivity.
  - unfold spline. rewrite (proj2 (Rltb_not v (x 0%nat))), (proj2 (Rltb_not (x (n - 1)%nat) v)) by lra. reflexivity.
Qed.
Print Assumptions C112_fixextrap.
(** the nodes 0, 1, 2 with the values 4, 1/10, 1/10 *)
Definition ex_x (i : nat) : R := INR i.
Definition ex_y (i : nat) : R := match i with O => 4 | _ => 1/10 end.
Lemma ex_inc : increasing 3 ex_x.
Proof. intros i Hi. unfold ex_x. rewrite plus_INR. cbn. lra. Qed.
Lemma ex_second : forall i, (i < 3)%nat -> second_derivs 3 ex_x ex_y i = match i with 1%nat => 585/100 | _ => 0 end.
Proof.
  intros i Hi. symmetry. apply (solve_unique 3 (spline_mat 3 ex_x) (spline_rhs 3 ex_x ex_y) (fun i => match i with 1%nat => 585/100 | _ => 0 end)); [apply spline_dominant; [lia|apply ex_inc]| |exact Hi].
  intros j Hj. apply row_iff; [lia|exact Hj|]. destruct j as [|[|[|j]]]; [| | |lia]; cbn; unfold ex_x, ex_y; cbn; field.
Qed.
(** Finding: positive node values do not give positive values in between, or outside the nodes without fixextrap, so that a
    calibrated width, scatter or error scale can come out negative between its nodes. *)
Theorem C112_positive_refuted : increasing 3 ex_x /\ (forall i, 0 < ex_y i) /\ spline false 3 ex_x ex_y (3/2) < 0 /\ spline false 3 ex_x ex_y 4 < 0.
Proof.
  split; [exact ex_inc|]. split; [intros [|i]; cbn; lra|].
  assert (I1 : interval ex_x 3 (3/2) = 1%nat) by (apply (interval_unique 3 ex_x ltac:(lia) ex_inc); [lia|right; unfold ex_x; cbn; lra|left; lia]).
  assert (I2 : interval ex_x 3 4 = 1%nat) by (apply (interval_unique 3 ex_x ltac:(lia) ex_inc); [lia|right; unfold ex_x; cbn; lra|left; lia]).
  unfold spline, splint. rewrite I1, I2. unfold piece. cbn [Nat.add]. rewrite !ex_second by lia. unfold ex_x, ex_y. cbn [INR]. split; lra.
Qed.
Print Assumptions C112_positive_refuted.
Example C112_example : spline false 3 ex_x ex_y (ex_x 1) = 1/10 /\ natural_cubic 3 ex_x (spline false 3 ex_x ex_y) /\ spline true 3 ex_x ex_y 4 = 1/10.
Proof.
  split; [rewrite C112_nodes by (auto using ex_inc; lia); reflexivity|]. split; [apply C112_natural; [lia|exact ex_inc]|].
  destruct (C112_fixextrap 3 ex_x ex_y 4 ltac:(lia) ex_inc) as (_ & A & _). rewrite A; [reflexivity|]. unfold ex_x. cbn. lra.
Qed.
