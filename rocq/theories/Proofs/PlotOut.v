(** Lemmas on the files of plots and the plot of richnesses. *)
From Coq Require Import QArith Qround Ascii String Lqa.
From Verif.Base Require Import Py PyLemmas.
From Verif.Model Require Import Names RunFlags PlotOut.
From Verif.Spec Require Import PlotOut.
From Coq Require Import Lia List. Import ListNotations.
Local Open Scope list_scope.

Lemma kinds_differ (a b : str) j k : a ++ s_ "_" ++ s_ (cat_name j) ++ s_ ".png" = b ++ s_ "_" ++ s_ (cat_name k) ++ s_ ".png" -> j = k /\ a = b.
Proof.
  intros H. assert (K : j = k).
  { assert (R := f_equal (@rev ascii) H). rewrite !rev_app_distr in R. destruct j, k; (reflexivity || (exfalso; cbn in R; congruence)). }
  split; [exact K|]. subst k. apply app_inv_tail in H. exact H.
Qed.
Lemma edge_S bs j : (edge bs (S j) == edge bs j + bs)%Q.
Proof. unfold edge. rewrite Nat2Z.inj_succ. unfold Z.succ. rewrite inject_Z_plus. change (inject_Z 1) with 1%Q. ring. Qed.
Lemma edge_lt bs i j : (0 < bs)%Q -> (edge bs i < edge bs j)%Q -> (i < j)%nat.
Proof. intros B H. unfold edge in H. apply Qmult_lt_r in H; [|exact B]. rewrite <- Zlt_Qlt in H. lia. Qed.
Lemma edge_mono bs i j : (0 < bs)%Q -> (i <= j)%nat -> (edge bs i <= edge bs j)%Q.
Proof. intros B H. unfold edge. apply Qmult_le_compat_r; [|lra]. rewrite <- Zle_Qle. lia. Qed.
Lemma in_bin_iff bs j x : in_lambda_bin bs j x = true <-> (S j < n_edges bs)%nat /\ (edge bs j <= x)%Q /\ ((x < edge bs (S j))%Q \/ (S (S j) = n_edges bs /\ x == edge bs (S j))%Q).
Proof.
  unfold in_lambda_bin. rewrite !Bool.andb_true_iff, Bool.orb_true_iff, Bool.andb_true_iff, Nat.ltb_lt, Qle_bool_iff, Qlt_bool_iff, Nat.eqb_eq, Qeq_bool_iff. tauto.
Qed.
Lemma in_bin_unique bs i j x : (0 < bs)%Q -> in_lambda_bin bs i x = true -> in_lambda_bin bs j x = true -> i = j.
Proof.
  intros B I J. apply in_bin_iff in I, J. destruct I as (I0 & I1 & I2), J as (J0 & J1 & J2).
  assert (A : forall a b, (S a < n_edges bs)%nat -> (S b < n_edges bs)%nat -> (edge bs a <= x)%Q -> ((x < edge bs (S b))%Q \/ (S (S b) = n_edges bs /\ x == edge bs (S b))%Q) -> (a <= b)%nat).
  { intros a b A0 B0 A1 [B1|[B1 _]]; [|lia]. assert (a < S b)%nat by (apply (edge_lt bs); [exact B|lra]). lia. }
  apply Nat.le_antisymm; apply A; assumption.
Qed.
Lemma in_bin_exists bs x : (0 < bs)%Q -> (2 <= n_edges bs)%nat -> (exists j, in_lambda_bin bs j x = true) <-> (0 <= x <= edge bs (n_edges bs - 1))%Q.
Proof.
  intros B N. split.
  - intros [j J]. apply in_bin_iff in J as (J0 & J1 & J2). assert (E0 : (edge bs 0 <= edge bs j)%Q) by (apply edge_mono; [exact B|lia]). assert (Z0 : (edge bs 0 == 0)%Q) by (unfold edge; change (inject_Z (Z.of_nat 0)) with 0%Q; ring).
    assert (E1 : (edge bs (S j) <= edge bs (n_edges bs - 1))%Q) by (apply edge_mono; [exact B|lia]). split; [lra|]. destruct J2 as [J2|[_ J2]]; lra.
  - intros [X0 X1]. destruct (Qlt_le_dec x (edge bs (n_edges bs - 1))) as [L|L].
    + assert (F0 : (0 <= x / bs)%Q) by (apply Qle_shift_div_l; lra). pose proof (Qfloor_le (x / bs)) as F1. pose proof (Qlt_floor (x / bs)) as F2. pose proof (Qfloor_resp_le 0 (x / bs) F0) as F3. change (Qfloor 0) with 0%Z in F3.
      set (z := Qfloor (x / bs)) in *. assert (M : (x == x / bs * bs)%Q) by (field; lra). set (q := (x / bs)%Q) in *.
      assert (A : (edge bs (Z.to_nat z) <= x)%Q). { unfold edge. rewrite Z2Nat.id by exact F3. rewrite M. apply Qmult_le_compat_r; lra. }
      assert (C : (x < edge bs (S (Z.to_nat z)))%Q). { unfold edge. rewrite Nat2Z.inj_succ, Z2Nat.id by exact F3. rewrite M. apply Qmult_lt_compat_r; [exact B|exact F2]. }
      exists (Z.to_nat z). apply in_bin_iff. assert (Z.to_nat z < n_edges bs - 1)%nat by (apply (edge_lt bs); [exact B|lra]). split; [lia|]. split; [exact A|left; exact C].
    + exists (n_edges bs - 2)%nat. apply in_bin_iff. replace (S (n_edges bs - 2)) with (n_edges bs - 1)%nat by lia. split; [lia|]. assert (E1 : (edge bs (n_edges bs - 2) <= edge bs (n_edges bs - 1))%Q) by (apply edge_mono; [exact B|lia]).
      split; [lra|]. right. split; [lia|lra].
Qed.
Lemma one_bin (b : nat -> bool) n j : (j < n)%nat -> b j = true -> (forall i, b i = true -> i = j) -> forall s, (s <= j < s + n)%nat -> fold_right Nat.add 0%nat (map (fun i => if b i then 1 else 0)%nat (seq s n)) = 1%nat.
Proof.
  intros _ BJ U. induction n as [|n IH]; intros s H; [lia|]. cbn [seq map fold_right]. destruct (Nat.eq_dec s j) as [->|D].
  - rewrite BJ. assert (Z : forall m t, (j < t)%nat -> fold_right Nat.add 0%nat (map (fun i => if b i then 1 else 0)%nat (seq t m)) = 0%nat).
    { induction m as [|m IHm]; intros t T; [reflexivity|]. cbn [seq map fold_right]. destruct (b t) eqn:E; [apply U in E; lia|]. rewrite IHm by lia. reflexivity. }
    rewrite Z by lia. reflexivity.
  - destruct (b s) eqn:E; [apply U in E; congruence|]. rewrite IH by lia. reflexivity.
Qed.
Lemma no_bin (b : nat -> bool) l : (forall i, b i = false) -> fold_right Nat.add 0%nat (map (fun i => if b i then 1 else 0)%nat l) = 0%nat.
Proof. intros H. induction l as [|i l IH]; [reflexivity|]. cbn [map fold_right]. rewrite H, IH. reflexivity. Qed.
Lemma sum_add (f g : nat -> nat) l : fold_right Nat.add 0%nat (map (fun i => f i + g i)%nat l) = (fold_right Nat.add 0%nat (map f l) + fold_right Nat.add 0%nat (map g l))%nat.
Proof. induction l as [|i l IH]; [reflexivity|]. cbn [map fold_right]. rewrite IH. lia. Qed.
Lemma counts_cons bs x lam : fold_right Nat.add 0%nat (lambda_counts bs (x :: lam)) =
  (fold_right Nat.add 0%nat (map (fun j => if in_lambda_bin bs j x then 1 else 0)%nat (seq 0 (n_edges bs - 1))) + fold_right Nat.add 0%nat (lambda_counts bs lam))%nat.
Proof.
  unfold lambda_counts. rewrite <- sum_add. f_equal. apply map_ext. intros j. cbn [filter]. destruct (in_lambda_bin bs j x); reflexivity.
Qed.
Lemma prefixb_iff s l : prefixb s l = true <-> exists t, l = s ++ t.
Proof.
  revert l. induction s as [|a s IH]; intros l; cbn [prefixb]; [split; [intros _; exists l; reflexivity|reflexivity]|]. destruct l as [|b l]; [split; [discriminate|intros [t T]; discriminate]|].
  destruct (ascii_dec a b) as [->|D]; [rewrite IH|].
  - split; intros [t T]; exists t; [rewrite T; reflexivity|injection T as T; exact T].
  - split; [discriminate|]. intros [t T]. injection T as T _. congruence.
Qed.
Lemma prefixb_app s l x : (List.length s <= List.length l)%nat -> prefixb s (l ++ x) = prefixb s l.
Proof.
  revert l. induction s as [|a s IH]; intros l L; [reflexivity|]. destruct l as [|b l]; [cbn in L; lia|]. cbn [prefixb app]. rewrite IH by (cbn in L; lia). reflexivity.
Qed.
Lemma before_common sep a x y : before sep (a ++ sep ++ x) = before sep (a ++ sep ++ y).
Proof.
  assert (B : forall t, before sep (sep ++ t) = []). { intros t. assert (P : prefixb sep (sep ++ t) = true) by (apply prefixb_iff; exists t; reflexivity). destruct (sep ++ t); cbn [before]; rewrite P; reflexivity. }
  induction a as [|c a IH]; [cbn [app]; rewrite !B; reflexivity|]. cbn [app before]. rewrite IH.
  change (c :: a ++ sep ++ x) with ((c :: a) ++ sep ++ x). change (c :: a ++ sep ++ y) with ((c :: a) ++ sep ++ y). rewrite (app_assoc (c :: a) sep x), (app_assoc (c :: a) sep y). rewrite (prefixb_app sep ((c :: a) ++ sep) x), (prefixb_app sep ((c :: a) ++ sep) y) by (rewrite app_length; lia). reflexivity.
Qed.
Lemma before_first sep l x : (forall a b, l ++ sep = a ++ sep ++ b -> b = []) -> before sep (l ++ sep ++ x) = l.
Proof.
  induction l as [|c l IH]; intros H.
  - cbn [app]. assert (P : prefixb sep (sep ++ x) = true) by (apply prefixb_iff; exists x; reflexivity). destruct (sep ++ x); cbn [before]; rewrite P; reflexivity.
  - cbn [app before]. assert (P : prefixb sep (c :: l ++ sep ++ x) = false).
    { change (c :: l ++ sep ++ x) with ((c :: l) ++ sep ++ x). rewrite app_assoc, prefixb_app by (rewrite app_length; lia). destruct (prefixb sep ((c :: l) ++ sep)) eqn:E; [|reflexivity]. exfalso. apply prefixb_iff in E as [t T].
      assert (Z := H [] t T). subst t. rewrite app_nil_r in T. assert (Y := f_equal (@List.length ascii) T). rewrite app_length in Y. cbn in Y. lia. }
    rewrite P. f_equal. apply IH. intros a b E. apply (H (c :: a) b). cbn [app]. rewrite E. reflexivity.
Qed.
Lemma NoDup_flat {A B} (f : A -> list B) l : NoDup l -> (forall a, NoDup (f a)) -> (forall a b y, In y (f a) -> In y (f b) -> a = b) -> NoDup (flat_map f l).
Proof.
  intros N F D. induction N as [|a l X N IH]; [constructor|]. cbn [flat_map]. assert (G : forall u v : list B, NoDup u -> NoDup v -> (forall y, In y u -> ~ In y v) -> NoDup (u ++ v)).
  { intros u v U V W. induction U as [|y u Y U IHu]; [exact V|]. cbn [app]. constructor; [rewrite in_app_iff; intros [K|K]; [exact (Y K)|exact (W y (or_introl eq_refl) K)]|]. apply IHu. intros z Z. apply W. right; exact Z. }
  apply G; [apply F|exact IH|]. intros y Y K. apply in_flat_map in K as (b & B0 & K). apply X. rewrite (D a b y Y K). exact B0.
Qed.
