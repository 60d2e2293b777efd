(** Proofs about the brightest satellites. *)
From Coq Require Import Reals Lra.
From Verif.Base Require Import Py PyLemmas.
From Verif.Model Require Import Galfile ErrBin Wcen BrightSat.
From Verif.Spec Require Import BrightSat.
From Verif.Proofs Require Import ErrBin RedSamp Ingest.
From Coq Require Import Lia List Permutation Sorting.Sorted. Import ListNotations.
Local Open Scope R_scope.

Lemma sorted_unique l : forall m, StronglySorted Rle l -> StronglySorted Rle m -> Permutation l m -> l = m.
Proof.
  induction l as [|a l IH]; intros m A B P; [symmetry; apply Permutation_nil; exact P|]. destruct m as [|b m]; [apply Permutation_sym, Permutation_nil in P; discriminate|].
  inversion_clear A as [|? ? A1 A2]. inversion_clear B as [|? ? B1 B2]. rewrite Forall_forall in A2, B2.
  assert (E : a = b). { apply Rle_antisym.
    - assert (I : In b (a :: l)) by (apply (Permutation_in _ (Permutation_sym P)); left; reflexivity). destruct I as [->|I]; [lra|apply A2, I].
    - assert (I : In a (b :: m)) by (apply (Permutation_in _ P); left; reflexivity). destruct I as [->|I]; [lra|apply B2, I]. }
  subst b. f_equal. apply IH; [assumption|assumption|]. apply (Permutation_cons_inv P).
Qed.
Lemma sortR_perm_eq l m : Permutation l m -> sortR l = sortR m.
Proof. intros P. apply sorted_unique; [apply sortR_sorted|apply sortR_sorted|]. rewrite sortR_perm, P. symmetry. apply sortR_perm. Qed.
Lemma insert_nth x l : StronglySorted Rle l -> forall k v, nth_error l k = Some v -> exists w, nth_error (insertR x l) k = Some w /\ w <= v.
Proof.
  induction l as [|y t IH]; intros SS k v E; [destruct k; discriminate|]. inversion_clear SS as [|? ? S1 S2]. cbn [insertR]. destruct (Rle_dec x y) as [L|L].
  - destruct k as [|k]; cbn in E; [injection E as <-; exists x; split; [reflexivity|exact L]|]. rewrite Forall_forall in S2. cbn [nth_error]. destruct k as [|k]; cbn [nth_error].
    + exists y. split; [reflexivity|]. apply S2. eapply nth_error_In, E.
    + destruct (nth_error t k) as [w|] eqn:F.
      * exists w. split; [reflexivity|]. apply (SS_nth Rle t k (S k) w v); [exact S1|lia|exact F|exact E].
      * apply nth_error_None in F. assert (S k < List.length t)%nat by (apply nth_error_Some; congruence). lia.
  - destruct k as [|k]; cbn in E |- *; [exists y; split; [reflexivity|injection E as <-; lra]|]. apply IH; assumption.
Qed.

(** more galaxies do not make the k-th brightest fainter *)
Lemma sort_app l r k v : nth_error (sortR l) k = Some v -> exists w, nth_error (sortR (l ++ r)) k = Some w /\ w <= v.
Proof.
  intros E. rewrite (sortR_perm_eq (l ++ r) (r ++ l)) by apply Permutation_app_comm. induction r as [|x r IH]; cbn [app]; [exists v; split; [exact E|lra]|].
  destruct IH as (w & W1 & W2). cbn [sortR]. destruct (insert_nth x (sortR (r ++ l)) (sortR_sorted _) k w W1) as (u & U1 & U2). exists u. split; [exact U1|lra].
Qed.
Lemma trial_ok mag lam st a b c : trial mag lam st = Ok (a, b, c) <-> exists v, mapM (at_index mag) (firstn (Z.to_nat (lam - 1)) st) = Ok v /\ nth_error (sortR v) 0 = Some a /\ nth_error (sortR v) 1 = Some b /\ nth_error (sortR v) 2 = Some c.
Proof.
  unfold trial. destruct (mapM _ _) as [v|] eqn:M; cbn [bind]; [|split; [discriminate|intros (v & V & _); discriminate]]. split.
  - intros H. exists v. split; [reflexivity|]. destruct (sortR v) as [|x [|y [|z t]]]; try discriminate. injection H as <- <- <-. cbn. tauto.
  - intros (v' & [= <-] & A & B & C). destruct (sortR v) as [|x [|y [|z t]]]; cbn in *; congruence.
Qed.
Lemma at_nth mag is v : mapM (at_index mag) is = Ok v -> v = map (fun i => nth i mag 0) is /\ forall i, In i is -> (i < List.length mag)%nat.
Proof.
  revert v. induction is as [|i is IH]; intros v H; cbn [mapM] in H; [injection H as <-; split; [reflexivity|intros i []]|]. unfold at_index at 1 in H. destruct (nth_error mag i) as [m|] eqn:E; [|discriminate]. cbn [bind] in H.
  destruct (mapM _ is) as [t|]; [|discriminate]. cbn [bind] in H. injection H as <-. destruct (IH t eq_refl) as [-> L]. split; [cbn [map]; f_equal; symmetry; apply nth_error_nth, E|]. intros j [<-|J]; [apply nth_error_Some; congruence|apply L, J].
Qed.
Lemma at_total mag is : (forall i, In i is -> (i < List.length mag)%nat) -> mapM (at_index mag) is = Ok (map (fun i => nth i mag 0) is).
Proof.
  induction is as [|i is IH]; intros H; [reflexivity|]. cbn [mapM map]. unfold at_index at 1. rewrite (nth_error_nth' mag 0) by (apply H; left; reflexivity). cbn [bind]. rewrite IH by (intros j J; apply H; right; exact J). reflexivity.
Qed.
Lemma smallest_sort l : (3 <= List.length l)%nat -> exists a b c t, sortR l = a :: b :: c :: t.
Proof. intros L. pose proof (sortR_len l) as E. destruct (sortR l) as [|a [|b [|c t]]]; cbn in E; try lia. eauto. Qed.
Lemma three_of_sort l a b c t : sortR l = a :: b :: c :: t -> three_smallest l a b c.
Proof.
  intros E. exists t. split; [rewrite <- E; apply sortR_perm|]. pose proof (sortR_sorted l) as SS. rewrite E in SS. inversion_clear SS as [|? ? S1 F1]. inversion_clear S1 as [|? ? S2 F2]. inversion_clear S2 as [|? ? S3 F3].
  rewrite Forall_forall in *. split; [split; [apply F1; left; reflexivity|apply F2; left; reflexivity]|exact F3].
Qed.
Lemma firstn_In_sub {A} n (l : list A) x : In x (firstn n l) -> In x l.
Proof. intros I. rewrite <- (firstn_skipn n l). apply in_or_app. left. exact I. Qed.
(** ** the line *)
Lemma squares_expand x : forall y a b, List.length x = List.length y ->
  squares x y (a, b) = INR (List.length x) * a ^ 2 + 2 * a * b * sumR x + b ^ 2 * dotR x x - 2 * a * sumR y - 2 * b * dotR x y + dotR y y.
Proof.
  induction x as [|u x IH]; intros [|v y] a b L; cbn [List.length] in L; try discriminate; [unfold dotR, sumR; cbn; ring|].
  injection L as L. cbn [squares fst snd]. rewrite (IH y a b L). unfold dotR, sumR. cbn [combine map fold_right fst snd List.length]. rewrite S_INR. ring.
Qed.
Lemma squares_nonneg x : forall y p, 0 <= squares x y p.
Proof. induction x as [|u x IH]; intros [|v y] p; cbn [squares]; try lra. pose proof (IH y p). pose proof (pow2_ge_0 (fst p + snd p * u - v)). lra. Qed.
Lemma squares_zero x : forall y p, List.length x = List.length y -> (squares x y p = 0 <-> Forall2 (fun u v => v = fst p + snd p * u) x y).
Proof.
  induction x as [|u x IH]; intros [|v y] p L; cbn [List.length] in L; try discriminate; cbn [squares]; [split; [constructor|reflexivity]|]. injection L as L. split; intros H.
  - pose proof (pow2_ge_0 (fst p + snd p * u - v)) as P. pose proof (squares_nonneg x y p) as Q. assert (Z : (fst p + snd p * u - v) ^ 2 = 0) by lra. constructor; [nra|]. apply IH; [exact L|lra].
  - inversion_clear H as [|? ? ? ? E F]. apply IH in F; [|exact L]. rewrite F, E. ring.
Qed.
Lemma F2n {A B} (Q : A -> B -> Prop) x z : Forall2 Q x z -> forall k w v, nth_error x k = Some w -> nth_error z k = Some v -> Q w v.
Proof. induction 1 as [|a b x z E F IH]; intros [|k] w v K V; try discriminate; cbn in *; [congruence|eapply IH; eassumption]. Qed.
Lemma F2e {A B} (Q : A -> B -> Prop) x z : Forall2 Q x z -> forall k w, nth_error x k = Some w -> exists v, nth_error z k = Some v /\ Q w v.
Proof. induction 1 as [|a b x z E F IH]; intros [|k] w K; try discriminate; cbn in *; [injection K as <-; eauto|eapply IH; eassumption]. Qed.
Lemma det_pos x i j u v : nth_error x i = Some u -> nth_error x j = Some v -> u <> v -> 0 < INR (List.length x) * dotR x x - sumR x * sumR x.
Proof.
  intros I J D. set (n := INR (List.length x)). assert (N : 0 < n). { unfold n. apply lt_0_INR. destruct x; [destruct i; discriminate|cbn; lia]. }
  set (m := sumR x / n). pose proof (squares_expand x x (- m) 1 eq_refl) as E1. set (z := map (fun _ => m) x).
  assert (E : squares x z (0, 1) = dotR x x - sumR x * sumR x / n).
  { assert (LZ : List.length x = List.length z) by (unfold z; rewrite map_length; reflexivity). rewrite (squares_expand x z 0 1 LZ).
    assert (A : forall (c : R) (x : list R), dotR x (map (fun _ => c) x) = c * sumR x /\ dotR (map (fun _ : R => c) x) (map (fun _ : R => c) x) = INR (List.length x) * c ^ 2).
    { clear. intros c. induction x as [|a x [IH1 IH2]]; [unfold dotR, sumR; cbn; split; ring|]. unfold dotR, sumR in *. cbn [map combine fold_right fst snd List.length]. rewrite S_INR, IH1, IH2. split; ring. }
    destruct (A m x) as [A1 A2]. fold z in A1, A2. rewrite A1, A2. fold n. unfold m. field. lra. }
  assert (P : 0 < squares x z (0, 1)).
  { destruct (squares_nonneg x z (0, 1)) as [P|P]; [exact P|]. exfalso. symmetry in P. apply squares_zero in P; [|unfold z; rewrite map_length; reflexivity]. cbn [fst snd] in P.
    assert (Q : forall k w, nth_error x k = Some w -> w = m). { intros k w K. assert (F : nth_error z k = Some m) by (unfold z; rewrite nth_error_map, K; reflexivity). pose proof (F2n _ _ _ P _ _ _ K F) as Z. cbv beta in Z. lra. }
    apply D. rewrite (Q i u I), (Q j v J). reflexivity. }
  rewrite E in P. assert (X : n * (dotR x x - sumR x * sumR x / n) = n * dotR x x - sumR x * sumR x) by (field; lra). rewrite <- X. apply Rmult_lt_0_compat; assumption.
Qed.
Lemma fit_best x y q : List.length x = List.length y -> 0 < INR (List.length x) * dotR x x - sumR x * sumR x ->
  squares x y (polyfit1 x y) <= squares x y q /\ (squares x y q = squares x y (polyfit1 x y) -> q = polyfit1 x y).
Proof.
  intros L D. assert (N : 0 < INR (List.length x)). { destruct x; [unfold dotR, sumR in D; cbn in D; lra|]. apply lt_0_INR. cbn. lia. }
  destruct q as [a b]. unfold polyfit1. set (n := INR (List.length x)) in *. set (Sx := sumR x) in *. set (Sxx := dotR x x) in *. set (Sy := sumR y). set (Sxy := dotR x y). cbv zeta. set (B := (n * Sxy - Sx * Sy) / (n * Sxx - Sx * Sx)). set (A := (Sy - B * Sx) / n).
  rewrite !squares_expand by exact L. fold n Sx Sxx Sy Sxy.
  assert (E1 : n * A + B * Sx = Sy) by (unfold A; field; lra). assert (E2 : A * Sx + B * Sxx = Sxy). { unfold A, B. field. split; lra. }
  assert (X : n * a ^ 2 + 2 * a * b * Sx + b ^ 2 * Sxx - 2 * a * Sy - 2 * b * Sxy + dotR y y - (n * A ^ 2 + 2 * A * B * Sx + B ^ 2 * Sxx - 2 * A * Sy - 2 * B * Sxy + dotR y y) = n * (a - A) ^ 2 + 2 * (a - A) * (b - B) * Sx + (b - B) ^ 2 * Sxx).
  { rewrite <- E1, <- E2. ring. }
  assert (Y : n * (n * (a - A) ^ 2 + 2 * (a - A) * (b - B) * Sx + (b - B) ^ 2 * Sxx) = (n * (a - A) + (b - B) * Sx) ^ 2 + (b - B) ^ 2 * (n * Sxx - Sx * Sx)) by ring.
  pose proof (pow2_ge_0 (n * (a - A) + (b - B) * Sx)) as P1. pose proof (pow2_ge_0 (b - B)) as P2. set (q := n * (a - A) ^ 2 + 2 * (a - A) * (b - B) * Sx + (b - B) ^ 2 * Sxx) in *.
  assert (P3 : 0 <= (b - B) ^ 2 * (n * Sxx - Sx * Sx)) by (apply Rmult_le_pos; lra). split; [nra|]. intros E. assert (Q : q = 0) by lra. rewrite Q, Rmult_0_r in Y. assert (Z1 : (b - B) ^ 2 * (n * Sxx - Sx * Sx) = 0) by lra. apply Rmult_integral in Z1 as [Z1|Z1]; [|lra].
  assert (Eb : b = B) by nra. rewrite Eb in *. assert (Z2 : (n * (a - A) + (B - B) * Sx) ^ 2 = 0) by lra. assert (Z3 : n * (a - A) = 0) by nra. apply Rmult_integral in Z3 as [Z3|Z3]; [lra|]. f_equal. lra.
Qed.
Lemma fit_exact x y p : List.length x = List.length y -> 0 < INR (List.length x) * dotR x x - sumR x * sumR x -> Forall2 (fun u v => v = fst p + snd p * u) x y -> polyfit1 x y = p.
Proof.
  intros L D F. destruct (fit_best x y p L D) as [A B]. apply squares_zero in F; [|exact L]. symmetry. apply B. pose proof (squares_nonneg x y (polyfit1 x y)). lra.
Qed.
Lemma lam_list testing : (forall l, In l (lambdas (nlambdas testing)) -> (20 <= l <= 100)%Z) /\ nth_error (lambdas (nlambdas testing)) 0 = Some 20%Z /\ nth_error (lambdas (nlambdas testing)) 1 = Some (if testing then 60 else 30)%Z.
Proof. destruct testing; (split; [intros l I; vm_compute in I; repeat (destruct I as [<-|I]; [lia|]); destruct I|split; reflexivity]). Qed.
Lemma lam_det pivot testing : 0 < pivot -> let x := map (fun l => ln (IZR l / pivot)) (lambdas (nlambdas testing)) in 0 < INR (List.length x) * dotR x x - sumR x * sumR x.
Proof.
  intros P x. destruct (lam_list testing) as (_ & A & B). apply (det_pos x 0 1 (ln (20 / pivot)) (ln (IZR (if testing then 60 else 30) / pivot))).
  - unfold x. rewrite nth_error_map, A. reflexivity.
  - unfold x. rewrite nth_error_map, B. reflexivity.
  - assert (K : 20 / pivot < IZR (if testing then 60 else 30) / pivot). { unfold Rdiv. apply Rmult_lt_compat_r; [apply Rinv_0_lt_compat, P|destruct testing; lra]. }
    assert (0 < 20 / pivot) by (apply Rdiv_lt_0_compat; lra). pose proof (ln_increasing _ _ H K). lra.
Qed.
