(** Proofs about runs over all pixels. *)
From Coq Require Import ZArith String Ascii.
From Verif.Base Require Import Py PyLemmas.
From Verif.Model Require Import Names RunAll.
From Verif.Spec Require Import RunAll.
From Verif.Proofs Require Import Names.
From Coq Require Import Lia List. Import ListNotations.
Local Open Scope list_scope.

Lemma gather_ok {A B} (f : A -> res B) l : forall rs, gather (map f l) = Ok rs <-> Forall2 (fun p w => f p = Ok w) l rs.
Proof.
  induction l as [|p l IH]; intros rs; cbn [map gather].
  - split; [intros H; assert (rs = []) as -> by congruence; constructor|intros H; inversion H; reflexivity].
  - split.
    + destruct (f p) as [x|e] eqn:E; [|discriminate]. cbn [bind]. destruct (gather (map f l)) as [y|e]; [|discriminate]. cbn [bind]. intros H. assert (rs = x :: y) as -> by congruence.
      constructor; [exact E|apply IH; reflexivity].
    + intros H. inversion H as [|? x ? y E1 E2]; subst. rewrite E1. cbn [bind]. apply IH in E2. rewrite E2. reflexivity.
Qed.
Lemma gather_err {A B} (f : A -> res B) l p e : In p l -> f p = Err e -> exists e', gather (map f l) = Err e'.
Proof.
  induction l as [|q l IH]; intros I E; [destruct I|]. cbn [map gather]. destruct I as [<-|I]; [rewrite E; eexists; reflexivity|].
  destruct (f q); cbn [bind]; [|eexists; reflexivity]. destruct (IH I E) as (e' & ->). eexists; reflexivity.
Qed.
Lemma with_file_ok get rs : files_of get rs (with_file get rs).
Proof.
  unfold with_file. split.
  - intros p f. rewrite in_flat_map. split.
    + intros (w & Hw & H). exists w. destruct (get w) as [x|] eqn:E; [|destruct H]. destruct H as [H|[]]. assert (w_pix w = p /\ x = f) as [-> ->] by (split; congruence). auto.
    + intros (w & Hw & Hp & Hg). exists w. split; [exact Hw|]. rewrite Hg, Hp. left. reflexivity.
  - exists (filter (fun w => match get w with Some _ => true | None => false end) rs). split; [|split; [|eexists; reflexivity]].
    + induction rs as [|w l IH]; [reflexivity|]. cbn [flat_map filter]. destruct (get w); cbn [app map fst]; [f_equal|]; exact IH.
    + induction rs as [|w l IH]; [reflexivity|]. cbn [flat_map filter]. destruct (get w) eqn:E; cbn [app map snd]; [rewrite E; f_equal|]; exact IH.
Qed.

Lemma fmt_val w p : (0 <= p)%Z -> parse (fmt w p) = p.
Proof.
  intros Hp. unfold fmt. rewrite parse_digits by exact Hp. apply Z.mod_small. split; [exact Hp|].
  set (k := ndigits (Z.to_nat p) p). assert (p < 10 ^ Z.of_nat k)%Z.
  { destruct (Z_lt_le_dec p (10 ^ Z.of_nat k)) as [L|L]; [exact L|exfalso]. assert (k <= Z.to_nat p)%nat.
    { apply Nat2Z.inj_le. rewrite Z2Nat.id by exact Hp. etransitivity; [|exact L]. apply Z.lt_le_incl, Z.pow_gt_lin_r; lia. }
    pose proof (ndigits_ge k (Z.to_nat p) p H L). unfold k in *. lia. }
  eapply Z.lt_le_trans; [exact H|]. apply Z.pow_le_mono_r; lia.
Qed.
Lemma fmt_inj w p q : (0 <= p)%Z -> (0 <= q)%Z -> fmt w p = fmt w q -> p = q.
Proof. intros Hp Hq E. rewrite <- (fmt_val w p Hp), <- (fmt_val w q Hq), E. reflexivity. Qed.
Lemma fmt_digits w p : (0 <= p)%Z -> forallb is_digit (fmt w p) = true.
Proof. apply digits_digit. Qed.
Lemma split_at_bar a : forall b x y, forallb is_digit a = true -> forallb is_digit b = true -> a ++ "_"%char :: x = b ++ "_"%char :: y -> a = b /\ x = y.
Proof.
  induction a as [|c a IH]; intros b x y Ha Hb E.
  - cbn [app] in E. destruct b as [|d b]; cbn [app] in E; [split; [reflexivity|injection E as E; exact E]|]. assert (d = "_"%char) by congruence. subst d. discriminate Hb.
  - destruct b as [|d b]; [cbn [app] in E; assert (c = "_"%char) by congruence; subst c; discriminate Ha|].
    cbn [app] in E. cbn [forallb] in Ha, Hb. apply andb_prop in Ha, Hb. assert (c = d) by congruence. subst d.
    destruct (IH b x y (proj2 Ha) (proj2 Hb)) as [-> ->]; [congruence|]. split; reflexivity.
Qed.
