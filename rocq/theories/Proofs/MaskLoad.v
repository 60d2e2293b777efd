From Coq Require Import QArith Qround ZArith String.
From Verif.Base Require Import Py PyLemmas.
From Verif.Model Require Import SubPix MaskLoad BkgTable.
From Verif.Spec Require Import MaskLoad SubPix.
From Coq Require Import Lqa Lia List. Import ListNotations.
Local Open Scope Q_scope.

Lemma keep_iff m g : keep (HP m) g = true <-> survives m g.
Proof.
  unfold survives. cbn. destruct (m (fst g)) as [fr|].
  - rewrite Qlt_bool_iff. split; [intros H; exists fr; auto|]. intros (f & E & H). injection E as <-. exact H.
  - split; [discriminate|]. intros (f & E & _). discriminate.
Qed.
Lemma round_int n : np_round (inject_Z n) = n.
Proof. unfold np_round. rewrite Qfloor_Z. assert (E : Qlt_bool (inject_Z n - inject_Z n) (1 # 2) = true) by (apply Qlt_bool_iff; ring_simplify; reflexivity). rewrite E. reflexivity. Qed.
Lemma round_comp x y : x == y -> np_round x = np_round y.
Proof.
  intros E. unfold np_round. rewrite (Qfloor_comp _ _ E). set (f := Qfloor y).
  assert (A : Qlt_bool (x - inject_Z f) (1 # 2) = Qlt_bool (y - inject_Z f) (1 # 2)).
  { apply Bool.eq_true_iff_eq. rewrite !Qlt_bool_iff. rewrite E. tauto. }
  assert (B : Qlt_bool (1 # 2) (x - inject_Z f) = Qlt_bool (1 # 2) (y - inject_Z f)).
  { apply Bool.eq_true_iff_eq. rewrite !Qlt_bool_iff. rewrite E. tauto. }
  rewrite A, B. reflexivity.
Qed.
Lemma round_near x : inject_Z (np_round x) - (1 # 2) <= x /\ x <= inject_Z (np_round x) + (1 # 2).
Proof.
  unfold np_round. pose proof (Qfloor_le x) as L. pose proof (Qlt_floor x) as U. rewrite inject_Z_plus in U. change (inject_Z 1) with 1 in U.
  destruct (Qlt_bool (x - _) (1 # 2)) eqn:A.
  - apply Qlt_bool_iff in A. split; lra.
  - apply Qlt_bool_false in A. destruct (Qlt_bool (1 # 2) _) eqn:B.
    + apply Qlt_bool_iff in B. rewrite inject_Z_plus. change (inject_Z 1) with 1. split; lra.
    + apply Qlt_bool_false in B. destruct (Z.even _); [|rewrite inject_Z_plus; change (inject_Z 1) with 1]; split; lra.
Qed.
Lemma whole_round z0 z1 bin n : whole z0 z1 bin n -> np_round ((z1 - z0) / bin) = Z.of_nat n.
Proof. intros [P E]. rewrite <- (round_int (Z.of_nat n)). apply round_comp. rewrite E. field. lra. Qed.
Lemma injn_lt i n : (i < n)%nat -> inject_Z (Z.of_nat i) + 1 <= inject_Z (Z.of_nat n).
Proof. intros H. change 1 with (inject_Z 1). rewrite <- inject_Z_plus, <- Zle_Qle. lia. Qed.
Lemma interp_beyond l : forall x0 f0 x, (forall x1 f1, In (x1, f1) l -> x1 < x) -> interp_from x0 f0 l x = snd (last l (x0, f0)).
Proof.
  induction l as [|[x1 f1] l IH]; intros x0 f0 x H; [reflexivity|]. cbn [interp_from]. assert (E : Qle_bool x x1 = false).
  { apply Bool.not_true_iff_false. rewrite Qle_bool_iff. pose proof (H x1 f1 (or_introl eq_refl)). lra. }
  rewrite E, IH; [|intros; apply (H _ f2); right; assumption]. cbn [last]. destruct l as [|q l]; [reflexivity|]. f_equal. clear. revert q. induction l as [|a l IH]; intros q; [reflexivity|]. cbn [last]. apply (IH a).
Qed.
Lemma last_map {A B} (f : A -> B) l d : last (map f l) (f d) = f (last l d).
Proof. induction l as [|a l IH]; [reflexivity|]. cbn [map last]. destruct l; [reflexivity|]. exact IH. Qed.
