From Coq Require Import QArith Qround String Ascii.
From Verif.Base Require Import Py PyLemmas.
From Verif.Model Require Import Names Util ProdNames.
From Verif.Spec Require Import ProdNames.
From Verif.Proofs Require Import Names RunAll Util.
From Coq Require Import Lqa Lia List. Import ListNotations.
Local Open Scope list_scope.

Definition stops (x : str) : Prop := match x with [] => True | c :: _ => is_digit c = false end.
Lemma split_digits a : forall b x y, forallb is_digit a = true -> forallb is_digit b = true -> stops x -> stops y -> a ++ x = b ++ y -> a = b /\ x = y.
Proof.
  induction a as [|c a IH]; intros b x y Ha Hb Sx Sy E.
  - cbn [app] in E. destruct b as [|d b]; [auto|]. subst x. cbn in Sx. cbn [forallb] in Hb. apply andb_prop in Hb. destruct Hb. congruence.
  - cbn [forallb] in Ha. apply andb_prop in Ha. destruct Ha as [Hc Ha]. destruct b as [|d b]; [cbn [app] in E; subst y; cbn in Sy; congruence|].
    cbn [app] in E. cbn [forallb] in Hb. apply andb_prop in Hb. destruct Hb as [Hd Hb]. assert (c = d) by congruence. subst d. destruct (IH b x y Ha Hb Sx Sy) as [-> ->]; [congruence|auto].
Qed.
Lemma int_floor q k : (0 <= q)%Q -> (0 <= k)%Z -> int_of q k = Qfloor (q * inject_Z k) /\ (0 <= int_of q k)%Z.
Proof.
  intros Hq Hk. unfold int_of. assert (0 <= q * inject_Z k)%Q by (apply Qmult_le_0_compat; [exact Hq|unfold Qle; cbn; lia]). rewrite Qtrunc_floor by assumption. split; [reflexivity|]. rewrite <- (Qfloor_Z 0). apply Qfloor_resp_le. exact H.
Qed.
Lemma field_eq w p q x y : (0 <= p)%Z -> (0 <= q)%Z -> stops x -> stops y -> fmt w p ++ x = fmt w q ++ y -> p = q /\ x = y.
Proof. intros Hp Hq Sx Sy E. apply split_digits in E; [|apply fmt_digits; assumption|apply fmt_digits; assumption|assumption|assumption]. destruct E as [E ->]. split; [exact (fmt_inj w p q Hp Hq E)|reflexivity]. Qed.
Lemma str_eqb_refl s : str_eqb s s = true.
Proof. induction s as [|c s IH]; [reflexivity|]. cbn. rewrite Ascii.eqb_refl. exact IH. Qed.
Lemma str_eqb_eq a : forall b, str_eqb a b = true -> a = b.
Proof. induction a as [|c a IH]; intros [|d b]; cbn; intros H; try discriminate; [reflexivity|]. apply andb_prop in H. destruct H as [H1 H2]. apply Ascii.eqb_eq in H1. rewrite (IH b H2). congruence. Qed.
Lemma add_same d n t : add d n t n = d n ++ [t].
Proof. unfold add. rewrite str_eqb_refl. reflexivity. Qed.
Lemma add_other d n t m : m <> n -> add d n t m = d m.
Proof. unfold add. intros H. destruct (str_eqb m n) eqn:E; [apply str_eqb_eq in E; congruence|reflexivity]. Qed.
Lemma names_differ base a : weights_name base a <> area_name base a.
Proof.
  unfold weights_name, area_name. intros E. apply app_inv_head in E. apply app_inv_head in E. apply app_inv_head in E. discriminate E.
Qed.
Lemma weights_iff a1 a2 tail : sensible_args a1 -> sensible_args a2 -> stops tail -> (weights_base a1 ++ tail = weights_base a2 ++ tail <-> digits_of a1 = digits_of a2).
Proof.
  intros [(A1 & A2 & A3 & A4) A5] [(B1 & B2 & B3 & B4) B5] St. unfold weights_base, digits_of.
  destruct a1 as [[p1 p2] zr1 m1 b1 l1], a2 as [[q1 q2] zr2 m2 b2 l2]. cbn [fst snd wa_conf wa_min wa_bin wa_lstar] in *.
  assert (H1 : forall q, (q * inject_Z 1 == q)%Q) by (intros; ring).
  pose proof (int_floor p1 100 A1 ltac:(lia)) as [E1 P1]. pose proof (int_floor p2 100 A2 ltac:(lia)) as [E2 P2]. pose proof (int_floor m1 1 A3 ltac:(lia)) as [E3 P3]. pose proof (int_floor l1 10 A4 ltac:(lia)) as [E4 P4].
  pose proof (int_floor q1 100 B1 ltac:(lia)) as [F1 Q1]. pose proof (int_floor q2 100 B2 ltac:(lia)) as [F2 Q2]. pose proof (int_floor m2 1 B3 ltac:(lia)) as [F3 Q3]. pose proof (int_floor l2 10 B4 ltac:(lia)) as [F4 Q4].
  rewrite (Qfloor_comp _ _ (H1 m1)) in E3. rewrite (Qfloor_comp _ _ (H1 m2)) in F3.
  change (inject_Z 100) with 100%Q in *. change (inject_Z 10) with 10%Q in *. rewrite <- E1, <- E2, <- E3, <- E4, <- F1, <- F2, <- F3, <- F4.
  split.
  - intros E. rewrite <- !app_assoc in E. apply app_inv_head in E.
    apply field_eq in E; [|assumption|assumption|reflexivity|reflexivity]. destruct E as [-> E]. apply app_inv_head in E.
    apply field_eq in E; [|assumption|assumption|reflexivity|reflexivity]. destruct E as [-> E]. apply app_inv_head in E.
    apply field_eq in E; [|assumption|assumption|destruct b1 as [[]|]; reflexivity|destruct b2 as [[]|]; reflexivity]. destruct E as [-> E].
    destruct b1 as [[c1 d1]|], b2 as [[c2 d2]|].
    + rewrite <- !app_assoc in E. apply app_inv_head in E. destruct A5 as [X1 X2], B5 as [Y1 Y2].
      pose proof (int_floor c1 1 X1 ltac:(lia)) as [E5 P5]. pose proof (int_floor d1 1 X2 ltac:(lia)) as [E6 P6]. pose proof (int_floor c2 1 Y1 ltac:(lia)) as [F5 Q5]. pose proof (int_floor d2 1 Y2 ltac:(lia)) as [F6 Q6].
      rewrite (Qfloor_comp _ _ (H1 c1)) in E5. rewrite (Qfloor_comp _ _ (H1 d1)) in E6. rewrite (Qfloor_comp _ _ (H1 c2)) in F5. rewrite (Qfloor_comp _ _ (H1 d2)) in F6.
      apply field_eq in E; [|assumption|assumption|reflexivity|reflexivity]. destruct E as [G1 E]. apply app_inv_head in E.
      apply field_eq in E; [|assumption|assumption|reflexivity|reflexivity]. destruct E as [G2 E]. apply app_inv_head in E.
      apply field_eq in E; [|assumption|assumption|assumption|assumption]. destruct E as [-> _]. rewrite <- E5, <- E6, <- F5, <- F6, G1, G2. reflexivity.
    + discriminate E.
    + discriminate E.
    + cbn [app] in E. apply app_inv_head in E. apply field_eq in E; [|assumption|assumption|assumption|assumption]. destruct E as [-> _]. reflexivity.
  - intros E. assert (G1 : int_of p1 100 = int_of q1 100) by congruence. assert (G2 : int_of p2 100 = int_of q2 100) by congruence. assert (G3 : int_of m1 1 = int_of m2 1) by congruence. assert (G4 : int_of l1 10 = int_of l2 10) by congruence. rewrite G1, G2, G3, G4.
    destruct b1 as [[c1 d1]|], b2 as [[c2 d2]|]; try congruence. destruct A5 as [X1 X2], B5 as [Y1 Y2].
    pose proof (int_floor c1 1 X1 ltac:(lia)) as [E5 P5]. pose proof (int_floor d1 1 X2 ltac:(lia)) as [E6 P6]. pose proof (int_floor c2 1 Y1 ltac:(lia)) as [F5 Q5]. pose proof (int_floor d2 1 Y2 ltac:(lia)) as [F6 Q6].
    rewrite (Qfloor_comp _ _ (H1 c1)) in E5. rewrite (Qfloor_comp _ _ (H1 d1)) in E6. rewrite (Qfloor_comp _ _ (H1 c2)) in F5. rewrite (Qfloor_comp _ _ (H1 d2)) in F6.
    assert (G5 : Qfloor c1 = Qfloor c2) by congruence. assert (G6 : Qfloor d1 = Qfloor d2) by congruence. rewrite E5, E6, F5, F6, G5, G6. reflexivity.
Qed.
