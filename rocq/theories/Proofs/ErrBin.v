(** Proofs about the fit of the ratio of magnitude errors. *)
From Coq Require Import Reals Lra.
From Verif.Base Require Import Py PyLemmas.
From Verif.Model Require Import ErrBin.
From Coq Require Import Lia List Permutation. Import ListNotations.
Local Open Scope R_scope.

Lemma insert_scale k x l : 0 < k -> insertR (x * k) (map (fun y => y * k) l) = map (fun y => y * k) (insertR x l).
Proof.
  intros Hk. induction l as [|y t IH]; cbn [insertR map]; [reflexivity|]. destruct (Rle_dec (x * k) (y * k)) as [L|L], (Rle_dec x y) as [L'|L']; cbn [map]; try reflexivity.
  - exfalso. apply L'. apply Rmult_le_reg_r with k; assumption.
  - exfalso. apply L. apply Rmult_le_compat_r; lra.
  - f_equal. exact IH.
Qed.
Lemma sort_scale k l : 0 < k -> sortR (map (fun y => y * k) l) = map (fun y => y * k) (sortR l).
Proof. intros Hk. induction l as [|x t IH]; cbn [sortR map]; [reflexivity|]. rewrite IH. apply insert_scale, Hk. Qed.
Lemma median_scale k l : 0 < k -> medianR (map (fun y => y * k) l) = medianR l * k.
Proof.
  intros Hk. unfold medianR. rewrite sort_scale by exact Hk. rewrite map_length.
  assert (N : forall i, nth i (map (fun y => y * k) (sortR l)) 0 = nth i (sortR l) 0 * k).
  { intros i. rewrite <- (map_nth (fun y => y * k) (sortR l) 0 i). f_equal. lra. }
  rewrite !N. destruct (Nat.even _); [lra|reflexivity].
Qed.
Lemma mad_scale k l : 0 < k -> madR (map (fun y => y * k) l) = madR l * k.
Proof.
  intros Hk. unfold madR. rewrite median_scale by exact Hk. rewrite map_map. rewrite Rmult_assoc. f_equal. rewrite <- (median_scale k (map (fun x => Rabs (x - medianR l)) l)) by exact Hk. rewrite map_map. f_equal. apply map_ext.
  intros x. rewrite <- Rmult_minus_distr_r, Rabs_mult. rewrite (Rabs_pos_eq k) by lra. reflexivity.
Qed.
Lemma insert_perm x l : Permutation (insertR x l) (x :: l).
Proof. induction l as [|y t IH]; cbn [insertR]; [reflexivity|]. destruct (Rle_dec x y); [reflexivity|]. rewrite IH. constructor. Qed.
Lemma sortR_perm l : Permutation (sortR l) l.
Proof. induction l as [|x t IH]; cbn [sortR]; [reflexivity|]. rewrite insert_perm. constructor. exact IH. Qed.
(** the median of equal values *)
Lemma median_const c l : l <> [] -> (forall x, In x l -> x = c) -> medianR l = c.
Proof.
  intros Hn Hc. unfold medianR. pose proof (sortR_perm l) as P. assert (L : (0 < List.length (sortR l))%nat) by (rewrite (Permutation_length P); destruct l; [congruence|cbn [List.length]; lia]).
  assert (N : forall i, (i < List.length (sortR l))%nat -> nth i (sortR l) 0 = c) by (intros i Hi; apply Hc; eapply Permutation_in; [exact P|apply nth_In, Hi]).
  destruct (Nat.even (List.length (sortR l))) eqn:E.
  - assert (2 <= List.length (sortR l))%nat by (destruct (List.length (sortR l)) as [|[|]]; [lia|discriminate|lia]).
    rewrite !N; [lra| |]; pose proof (Nat.div_lt (List.length (sortR l)) 2); lia.
  - rewrite N; [reflexivity|]. apply Nat.div_lt; lia.
Qed.
Lemma mad_const c l : l <> [] -> (forall x, In x l -> x = c) -> madR l = 0.
Proof.
  intros Hn Hc. unfold madR. rewrite (median_const c l Hn Hc). rewrite (median_const 0); [lra|destruct l; [congruence|discriminate]|].
  intros x Hx. apply in_map_iff in Hx. destruct Hx as (y & <- & Hy). rewrite (Hc y Hy). replace (c - c) with 0 by lra. apply Rabs_R0.
Qed.
Lemma pull_scale a g : 0 < a -> g_s2 g = 0 -> pull true true a 0 g = pull false false 1 0 g * / a.
Proof.
  intros Ha Hs. unfold pull. rewrite Hs. replace (a + 0 * g_dm g) with a by ring.
  replace (0 + (a * g_e0 g) ^ 2 + (a * g_e1 g) ^ 2) with (a ^ 2 * (0 + g_e0 g ^ 2 + g_e1 g ^ 2)) by ring.
  rewrite sqrt_mult_alt by (apply pow2_ge_0). rewrite sqrt_pow2 by lra. unfold Rdiv.
  destruct (Req_dec (sqrt (0 + g_e0 g ^ 2 + g_e1 g ^ 2)) 0) as [E|E]; [rewrite E, Rmult_0_r; unfold Rdiv; ring_simplify|rewrite Rinv_mult_distr by lra; ring].
  rewrite Rinv_0. ring.
Qed.
