(** Lemmas for Props/PlotNz.v *)
From Coq Require Import QArith Qround Reals Lra Sorted.
From Verif.Base Require Import Py PyLemmas.
From Verif.Model Require Import Maskgals Galfile Util PdfSample BkgGen PlotNz.
From Verif.Model Require RedCal.
From Verif.Proofs Require RedCal BkgGen Util Ingest.
From Verif.Spec Require Import PlotNz.
From Coq Require Import Lqa Lia List. Import ListNotations.
Local Open Scope Q_scope.

Lemma py_index_in {A} (l : list A) i a : (0 <= i < Z.of_nat (List.length l))%Z -> nth_error l (Z.to_nat i) = Some a -> py_index l i = Ok a.
Proof. intros I E. unfold py_index. cbv zeta. destruct (Z.ltb_spec i 0); [lia|]. destruct (Z.ltb_spec i 0); [lia|]. destruct (Z.leb_spec (Z.of_nat (List.length l)) i); [lia|]. cbn [orb]. rewrite E. reflexivity. Qed.
(** ** a point *)
Lemma sqrt_gt5 h : (5 < sqrt (INR h) <-> (25 < h)%nat)%R.
Proof.
  split; intros H.
  - apply INR_lt. replace (INR 25) with (5 * 5)%R by (cbn; Lra.lra). rewrite <- (sqrt_sqrt (INR h)) by apply pos_INR. apply Rmult_gt_0_lt_compat; Lra.lra.
  - apply lt_INR in H. replace (INR 25) with (5 * 5)%R in H by (cbn; Lra.lra). rewrite <- (sqrt_square 5) by Lra.lra. apply sqrt_lt_1_alt. Lra.lra.
Qed.
Lemma point_spec h v : (0 < v)%R -> point h v = if Nat.ltb 25 h then Some (INR h / v * 10000, sqrt (INR h) / v * 10000)%R else None.
Proof.
  intros V. unfold point. cbv zeta. replace (INR h / v * v)%R with (INR h) by (field; Lra.lra).
  assert (E : forall a b, Rltb a b = true <-> (a < b)%R) by (intros a b; apply BkgGen.Rltb_iff).
  destruct (Nat.ltb_spec 25 h) as [H|H].
  - assert (P : (0 < INR h)%R) by (apply lt_0_INR; lia). assert (S := proj2 (sqrt_gt5 h) H).
    rewrite (proj2 (E _ _)) by (apply Rdiv_lt_0_compat; assumption). rewrite (proj2 (E 0 _)%R) by (apply Rdiv_lt_0_compat; Lra.lra).
    rewrite (proj2 (E 5 _)%R); [reflexivity|]. replace (INR h / v / (sqrt (INR h) / v))%R with (INR h / sqrt (INR h))%R by (field; split; Lra.lra).
    rewrite <- (sqrt_sqrt (INR h)) at 1 by apply pos_INR. replace (sqrt (INR h) * sqrt (INR h) / sqrt (INR h))%R with (sqrt (INR h)) by (field; Lra.lra). exact S.
  - destruct (Rltb 0 (INR h / v)) eqn:A; [|reflexivity]. destruct (Rltb 0 (sqrt (INR h) / v)) eqn:B; [|reflexivity]. cbn [andb].
    destruct (Rltb 5 _) eqn:C; [|reflexivity]. exfalso. apply E in A, B, C. assert (SP : (0 < sqrt (INR h))%R). { destruct (Rle_lt_dec (sqrt (INR h)) 0) as [G|G]; [|exact G]. pose proof (sqrt_pos (INR h)). assert (Z : sqrt (INR h) = 0%R) by Lra.lra. rewrite Z in B. unfold Rdiv in B. rewrite Rmult_0_l in B. Lra.lra. }
    replace (INR h / v / (sqrt (INR h) / v))%R with (INR h / sqrt (INR h))%R in C by (field; split; Lra.lra).
    rewrite <- (sqrt_sqrt (INR h)) in C at 1 by apply pos_INR. replace (sqrt (INR h) * sqrt (INR h) / sqrt (INR h))%R with (sqrt (INR h)) in C by (field; Lra.lra).
    apply sqrt_gt5 in C. lia.
Qed.

(** ** bins *)
Definition nb (z0 z1 bs : Q) : nat := Z.to_nat (Qtrunc ((z1 - (1 # 10000) - z0) / bs) + 1).
Lemma nb_spec z0 z1 bs : 0 < bs -> z0 <= z1 - (1 # 10000) -> (0 < nb z0 z1 bs)%nat /\ z0 + Qn (nb z0 z1 bs - 1) * bs <= z1 - (1 # 10000) /\ z1 - (1 # 10000) < z0 + Qn (nb z0 z1 bs) * bs.
Proof.
  intros B Z. set (h := z1 - (1 # 10000)) in *. assert (Q0 : 0 <= (h - z0) / bs) by (apply Qle_shift_div_l; lra).
  assert (T0 : (0 <= Qtrunc ((h - z0) / bs))%Z). { rewrite Util.Qtrunc_floor by exact Q0. change 0%Z with (Qfloor 0). apply Qfloor_resp_le. exact Q0. }
  unfold nb. fold h. split; [lia|]. replace (Z.to_nat (Qtrunc ((h - z0) / bs) + 1)) with (S (Z.to_nat (Qtrunc ((h - z0) / bs)))) by lia.
  replace (S (Z.to_nat (Qtrunc ((h - z0) / bs))) - 1)%nat with (Z.to_nat (Qtrunc ((h - z0) / bs))) by lia.
  apply (proj1 (RedCal.trunc_bin z0 bs h (Z.to_nat (Qtrunc ((h - z0) / bs))) B Z)). apply Z.eqb_eq. lia.
Qed.
Lemma counts_length z0 z1 bs zs : List.length (counts z0 z1 bs zs) = nb z0 z1 bs.
Proof. unfold counts, RedCal.histogram, nb. rewrite map_length, seq_length. reflexivity. Qed.
Lemma edge z0 bs j : center z0 bs j - bs / 2 == z0 + Qn j * bs.
Proof. unfold center, Qn. field. Qed.
Lemma edge' z0 bs j : center z0 bs j + bs / 2 == z0 + Qn (S j) * bs.
Proof. rewrite RedCal.Qn_S. unfold center, Qn. field. Qed.
Lemma Qn_nonneg j : 0 <= Qn j.
Proof. unfold Qn. change 0 with (inject_Z 0). rewrite <- Zle_Qle. lia. Qed.
Lemma Qn_le i j : (i <= j)%nat -> Qn i <= Qn j.
Proof. intros H. unfold Qn. rewrite <- Zle_Qle. lia. Qed.
Lemma low_eq z0 bs j : 0 < bs -> low z0 bs j == z0 + Qn j * bs.
Proof.
  intros B. unfold low, Qmax2. pose proof (edge z0 bs j) as E. assert (0 <= Qn j * bs) by (apply Qmult_le_0_compat; [apply Qn_nonneg | lra]).
  destruct (Qle_bool (center z0 bs j - bs / 2) z0) eqn:L; [apply Qle_bool_iff in L; lra | exact E].
Qed.
Lemma high_eq z0 z1 bs j : (z0 + Qn (S j) * bs <= z1 -> high z0 z1 bs j == z0 + Qn (S j) * bs) /\ (z1 <= z0 + Qn (S j) * bs -> high z0 z1 bs j == z1).
Proof.
  unfold high, Qmin2. pose proof (edge' z0 bs j) as E. destruct (Qle_bool _ z1) eqn:L; [apply Qle_bool_iff in L | apply Qle_bool_false in L]; split; intros; lra.
Qed.
Lemma low_high z0 z1 bs j : 0 < bs -> z0 <= z1 - (1 # 10000) -> (j < nb z0 z1 bs)%nat -> low z0 bs j < high z0 z1 bs j.
Proof.
  intros B Z J. destruct (nb_spec z0 z1 bs B Z) as [N [A C]]. rewrite (low_eq z0 bs j B). destruct (high_eq z0 z1 bs j) as [H1 H2].
  assert (Qn j <= Qn (nb z0 z1 bs - 1)) by (apply Qn_le; lia). assert (Qn j * bs <= Qn (nb z0 z1 bs - 1) * bs) by (apply Qmult_le_compat_r; lra).
  assert (S : Qn (S j) * bs == Qn j * bs + bs) by (rewrite RedCal.Qn_S; ring).
  destruct (Qlt_le_dec z1 (z0 + Qn (Datatypes.S j) * bs)) as [G|G]; [rewrite H2 by lra; lra | rewrite H1 by exact G; lra].
Qed.
(** the volumes of the bins before bin [n] *)
Lemma telescope F z0 z1 bs n : (forall a b, a == b -> F a = F b :> R) -> 0 < bs -> z0 <= z1 - (1 # 10000) -> (n < nb z0 z1 bs)%nat ->
  sumR (map (fun j => (F (high z0 z1 bs j) - F (low z0 bs j))%R) (seq 0 n)) = (F (z0 + Qn n * bs)%Q - F z0)%R.
Proof.
  intros P B Z. assert (APP : forall l x, sumR (l ++ [x]) = (sumR l + x)%R) by (induction l as [|y l IH]; intros x; cbn; [Lra.lra | rewrite IH; Lra.lra]).
  induction n as [|n IH]; intros N.
  - cbn. rewrite (P (z0 + Qn 0 * bs) z0); [Lra.lra|]. unfold Qn. cbn. ring.
  - rewrite seq_S, map_app. cbn [map plus]. rewrite APP, IH by lia. destruct (nb_spec z0 z1 bs B Z) as [N0 [A C]].
    assert (Qn (S n) <= Qn (nb z0 z1 bs - 1)) by (apply Qn_le; lia). assert (Qn (S n) * bs <= Qn (nb z0 z1 bs - 1) * bs) by (apply Qmult_le_compat_r; lra).
    rewrite (P (high z0 z1 bs n) (z0 + Qn (S n) * bs)) by (apply high_eq; lra). rewrite (P (low z0 bs n) (z0 + Qn n * bs)) by (apply low_eq; exact B). Lra.lra.
Qed.
Lemma telescope_all F z0 z1 bs : (forall a b, a == b -> F a = F b :> R) -> 0 < bs -> z0 <= z1 - (1 # 10000) ->
  sumR (map (fun j => (F (high z0 z1 bs j) - F (low z0 bs j))%R) (seq 0 (nb z0 z1 bs))) = (F (Qmin2 (z0 + Qn (nb z0 z1 bs) * bs) z1)%Q - F z0)%R.
Proof.
  intros P B Z. assert (APP : forall l x, sumR (l ++ [x]) = (sumR l + x)%R) by (induction l as [|y l IH]; intros x; cbn; [Lra.lra | rewrite IH; Lra.lra]).
  destruct (nb_spec z0 z1 bs B Z) as [N [A C]]. destruct (nb z0 z1 bs) as [|n] eqn:E; [lia|]. rewrite seq_S, map_app. cbn [map plus]. rewrite APP.
  rewrite (telescope F z0 z1 bs n P B Z) by lia. rewrite (P (low z0 bs n) (z0 + Qn n * bs)) by (apply low_eq; exact B).
  rewrite (P (high z0 z1 bs n) (Qmin2 (z0 + Qn (S n) * bs) z1)); [Lra.lra|]. unfold Qmin2. destruct (Qle_bool (z0 + Qn (S n) * bs) z1) eqn:L.
  - apply Qle_bool_iff in L. apply high_eq; exact L.
  - apply Qle_bool_false in L. apply high_eq; lra.
Qed.

(** every object in range is counted once *)
Lemma count_one z0 h bs z : 0 < bs -> z0 <= z -> z <= h -> exists j, (j < Z.to_nat (Qtrunc ((h - z0) / bs) + 1))%nat /\ forall i, (Qtrunc ((z - z0) / bs) =? Z.of_nat i)%Z = Nat.eqb i j.
Proof.
  intros B A C. assert (Q0 : 0 <= (z - z0) / bs) by (apply Qle_shift_div_l; lra).
  assert (LE : (z - z0) / bs <= (h - z0) / bs) by (unfold Qdiv; apply Qmult_le_compat_r; [lra | apply Qlt_le_weak, Qinv_lt_0_compat, B]).
  assert (T0 : (0 <= Qtrunc ((z - z0) / bs))%Z). { rewrite Util.Qtrunc_floor by exact Q0. change 0%Z with (Qfloor 0). apply Qfloor_resp_le. exact Q0. }
  assert (T1 : (Qtrunc ((z - z0) / bs) <= Qtrunc ((h - z0) / bs))%Z). { rewrite !Util.Qtrunc_floor; [apply Qfloor_resp_le; exact LE | eapply Qle_trans; eassumption | exact Q0]. }
  exists (Z.to_nat (Qtrunc ((z - z0) / bs))). split; [lia|]. intros i. destruct (Nat.eqb_spec i (Z.to_nat (Qtrunc ((z - z0) / bs)))); [apply Z.eqb_eq; lia | apply Z.eqb_neq; lia].
Qed.
Lemma sum_add (f g : nat -> nat) (l : list nat) : sumN (map (fun j => (f j + g j)%nat) l) = (sumN (map f l) + sumN (map g l))%nat.
Proof. induction l as [|x l IH]; cbn; [reflexivity|]. rewrite IH. lia. Qed.
Lemma sum_zero {A} (l : list A) : sumN (map (fun _ => 0%nat) l) = 0%nat.
Proof. induction l; cbn; auto. Qed.
Lemma sum_one n j : (j < n)%nat -> sumN (map (fun i => if Nat.eqb i j then 1 else 0)%nat (seq 0 n)) = 1%nat.
Proof.
  intros J. assert (APP : forall l x, sumN (l ++ [x]) = (sumN l + x)%nat) by (induction l as [|y l IH]; intros x; cbn; [lia | rewrite IH; lia]).
  assert (ZERO : forall k, (k <= j)%nat -> sumN (map (fun i => if Nat.eqb i j then 1 else 0)%nat (seq 0 k)) = 0%nat).
  { induction k as [|k IH]; intros K; [reflexivity|]. rewrite seq_S, map_app. cbn [map plus]. rewrite APP, IH by lia. destruct (Nat.eqb_spec k j); lia. }
  induction n as [|n IH]; [lia|]. rewrite seq_S, map_app. cbn [map plus]. rewrite APP. destruct (Nat.eqb_spec n j) as [->|NE]; [rewrite ZERO by lia; reflexivity | rewrite IH by lia; reflexivity].
Qed.
Lemma counts_sum z0 z1 bs zs : 0 < bs -> sumN (counts z0 z1 bs zs) = List.length (filter (fun z => Qle_bool z0 z && Qle_bool z (z1 - (1 # 10000)))%bool zs).
Proof.
  intros B. unfold counts, RedCal.histogram. set (h := z1 - (1 # 10000)). set (N := Z.to_nat _).
  assert (IN : forall z, In z (filter (fun z => Qle_bool z0 z && Qle_bool z h)%bool zs) -> z0 <= z /\ z <= h).
  { intros z X. apply filter_In in X. destruct X as [_ X]. apply andb_prop in X. rewrite !Qle_bool_iff in X. exact X. }
  revert IN. generalize (filter (fun z => Qle_bool z0 z && Qle_bool z h)%bool zs) as l. induction l as [|z l IH]; intros IN.
  - cbn. apply sum_zero.
  - destruct (IN z (or_introl eq_refl)) as [A C]. destruct (count_one z0 h bs z B A C) as [j [J E]].
    rewrite (map_ext _ (fun i => ((if Nat.eqb i j then 1 else 0) + List.length (filter (fun x => (Qtrunc ((x - z0) / bs) =? Z.of_nat i)%Z) l))%nat)).
    + rewrite sum_add, IH by (intros y Y; apply IN; right; exact Y). rewrite sum_one by exact J. reflexivity.
    + intros i. cbn [filter]. rewrite E. destruct (Nat.eqb i j); reflexivity.
Qed.

(** ** positions *)
Lemma max_bound t : forall x, (forall y, In y (x :: t) -> y <= fold_left Qmax2 t x) /\ exists y, In y (x :: t) /\ y == fold_left Qmax2 t x.
Proof.
  induction t as [|a t IH]; intros x; cbn [fold_left].
  - split; [intros y [<-|[]]; apply Qle_refl | exists x; split; [left|]; reflexivity].
  - destruct (IH (Qmax2 x a)) as [A [w [W E]]]. assert (M : x <= Qmax2 x a /\ a <= Qmax2 x a /\ (Qmax2 x a = x \/ Qmax2 x a = a)).
    { unfold Qmax2. destruct (Qle_bool x a) eqn:L; [apply Qle_bool_iff in L | apply Qle_bool_false in L]; repeat split; auto; lra. }
    destruct M as [M1 [M2 M3]]. split.
    + intros y [<-|[<-|H]]; [eapply Qle_trans; [exact M1|]; apply A; left; reflexivity | eapply Qle_trans; [exact M2|]; apply A; left; reflexivity | apply A; right; exact H].
    + exists w. split; [|exact E]. destruct W as [<-|W]; [destruct M3 as [-> | ->]; [left|right; left]; reflexivity | right; right; exact W].
Qed.
Lemma min_bound t : forall x, (forall y, In y (x :: t) -> fold_left Qmin2 t x <= y) /\ exists y, In y (x :: t) /\ y == fold_left Qmin2 t x.
Proof.
  induction t as [|a t IH]; intros x; cbn [fold_left].
  - split; [intros y [<-|[]]; apply Qle_refl | exists x; split; [left|]; reflexivity].
  - destruct (IH (Qmin2 x a)) as [A [w [W E]]]. assert (M : Qmin2 x a <= x /\ Qmin2 x a <= a /\ (Qmin2 x a = x \/ Qmin2 x a = a)).
    { unfold Qmin2. destruct (Qle_bool x a) eqn:L; [apply Qle_bool_iff in L | apply Qle_bool_false in L]; repeat split; auto; lra. }
    destruct M as [M1 [M2 M3]]. split.
    + intros y [<-|[<-|H]]; [eapply Qle_trans; [|exact M1]; apply A; left; reflexivity | eapply Qle_trans; [|exact M2]; apply A; left; reflexivity | apply A; right; exact H].
    + exists w. split; [|exact E]. destruct W as [<-|W]; [destruct M3 as [-> | ->]; [left|right; left]; reflexivity | right; right; exact W].
Qed.
Lemma extent_spec l : l <> [] -> exists d, extent l = Ok d /\ (forall a b, In a l -> In b l -> a - b <= d) /\ exists a b, In a l /\ In b l /\ d == a - b.
Proof.
  destruct l as [|x t]; [congruence|]. intros _. eexists. split; [reflexivity|]. destruct (max_bound t x) as [A [p [P EP]]]. destruct (min_bound t x) as [B [q [Qi EQ]]]. split.
  - intros a b Ha Hb. specialize (A a Ha). specialize (B b Hb). lra.
  - exists p, q. split; [exact P|]. split; [exact Qi|]. lra.
Qed.
Lemma mod360_eq x k : 0 <= x - 360 * inject_Z k -> x - 360 * inject_Z k < 360 -> mod360 x == x - 360 * inject_Z k.
Proof.
  intros A B. unfold mod360. assert (E : Qfloor (x / 360) = k); [|rewrite E; reflexivity].
  assert (L : inject_Z k <= x / 360) by (apply Qle_shift_div_l; lra). assert (U : x / 360 < inject_Z k + 1) by (apply Qlt_shift_div_r; lra).
  pose proof (Qfloor_le (x / 360)) as F1. pose proof (Qlt_floor (x / 360)) as F2. rewrite inject_Z_plus in F2. change (inject_Z 1) with 1 in F2.
  assert (G1 : inject_Z k < inject_Z (Qfloor (x / 360) + 1)) by (rewrite inject_Z_plus; change (inject_Z 1) with 1; lra).
  assert (G2 : inject_Z (Qfloor (x / 360)) < inject_Z (k + 1)) by (rewrite inject_Z_plus; change (inject_Z 1) with 1; lra).
  rewrite <- Zlt_Qlt in G1, G2. lia.
Qed.
