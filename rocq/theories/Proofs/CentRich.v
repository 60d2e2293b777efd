(** Proofs for C154, C155 and C156. *)
From Coq Require Import Reals Lra String.
From Verif.Base Require Import Py PyLemmas.
From Verif.Model Require Import CentRich.
From Verif.Spec Require Import CentRich.
From Coq Require Import Lia List. Import ListNotations.
Local Open Scope R_scope.

Lemma Rmax_same v : 1 / 100 <= v -> Rmax v (1 / 100) = v.
Proof. intros H. apply Rmax_left, H. Qed.
Lemma at_ok v : 1 / 100 <= v -> at_redshift v = Ok v.
Proof. intros H. unfold at_redshift. destruct (Rlt_dec v 0); [lra|]. rewrite Rmax_same by exact H. reflexivity. Qed.
Lemma at_neg v : v < 0 -> at_redshift v = Err ValueError.
Proof. intros H. unfold at_redshift. destruct (Rlt_dec v 0); [reflexivity|contradiction]. Qed.
Lemma with_r_same s l : (forall n, In n l -> n_r n = Rmax (s * n_dist n) (1 / 1000000)) -> map (with_r s) l = l.
Proof.
  induction l as [|n l IH]; intros H; [reflexivity|]. cbn [map]. rewrite IH by (intros; apply H; right; assumption). f_equal. unfold with_r. rewrite <- (H n (or_introl eq_refl)). destruct n; reflexivity.
Qed.
Lemma with_r_in s l n : In n (map (with_r s) l) -> n_r n = Rmax (s * n_dist n) (1 / 1000000).
Proof. intros I. apply in_map_iff in I. destruct I as (m & <- & _). reflexivity. Qed.

Lemma expect_bounds p x lo hi : List.length p = List.length x -> (forall q, In q p -> 0 <= q) -> (forall v, In v x -> lo <= v <= hi) ->
  lo * fold_right Rplus 0 p <= expect p x <= hi * fold_right Rplus 0 p.
Proof.
  unfold expect. revert x. induction p as [|q p IH]; intros [|v x] L P X; try discriminate; cbn; [lra|].
  injection L as L. specialize (IH x L (fun q I => P q (or_intror I)) (fun v I => X v (or_intror I))). pose proof (P q (or_introl eq_refl)) as Q. destruct (X v (or_introl eq_refl)) as [A B].
  pose proof (Rmult_le_compat_l q _ _ Q A). pose proof (Rmult_le_compat_l q _ _ Q B). lra.
Qed.
Lemma expect_sq p x c : List.length p = List.length x ->
  expect p (map (fun v => (v - c) ^ 2) x) = expect p (map (fun v => v ^ 2) x) - 2 * c * expect p x + c ^ 2 * fold_right Rplus 0 p.
Proof.
  unfold expect. revert x. induction p as [|q p IH]; intros [|v x] L; try discriminate; cbn [map combine fold_right fst snd]; [ring|]. injection L as L. rewrite (IH x L). ring.
Qed.
Lemma expect_nonneg p x : (forall q, In q p -> 0 <= q) -> (forall v, In v x -> 0 <= v) -> 0 <= expect p x.
Proof.
  unfold expect. revert x. induction p as [|q p IH]; intros [|v x] P X; cbn; try lra. specialize (IH x (fun q I => P q (or_intror I)) (fun v I => X v (or_intror I))).
  pose proof (Rmult_le_pos q v (P q (or_introl eq_refl)) (X v (or_introl eq_refl))). lra.
Qed.
Lemma square_map p x : map (fun q => fst q * snd q ^ 2) (combine p x) = map (fun q => fst q * snd q) (combine p (map (fun v => v ^ 2) x)).
Proof. revert x. induction p as [|q p IH]; intros [|v x]; try reflexivity. cbn [map combine fst snd]. rewrite IH. reflexivity. Qed.
Lemma cent_len {Pos Marks} (marks_at : Pos -> Marks) rich maxcent cents : (List.length cents <= maxcent)%nat -> List.length (lambda_cent marks_at rich maxcent cents) = maxcent.
Proof. destruct cents as [|p0 alts]; cbn [List.length lambda_cent]; intros H; [apply repeat_length|]. rewrite app_length, repeat_length. cbn [List.length]. rewrite map_length. lia. Qed.
