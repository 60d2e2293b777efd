From Coq Require Import Ascii String QArith Qround.
From Verif.Base Require Import Py PyLemmas.
From Verif.Model Require Import RandMaker.
From Verif.Spec Require Import RandMaker.
From Coq Require Import Lia List. Import ListNotations.
Local Open Scope string_scope.

Lemma strip_ok p : forall s r, strip_prefix p s = Some r <-> s = p ++ r.
Proof.
  induction p as [|a p IH]; intros s r; cbn.
  - split; [intros E; injection E as <-; reflexivity|intros ->; reflexivity].
  - destruct s as [|b s]; [split; discriminate|]. destruct (Ascii.eqb a b) eqn:E.
    + apply Ascii.eqb_eq in E as <-. rewrite IH. split; [intros ->; reflexivity|intros H; injection H; tauto].
    + split; [discriminate|]. intros H. injection H as -> _. rewrite Ascii.eqb_refl in E. discriminate.
Qed.
Lemma tail_ok s : is_tail s = true <-> exists c, s = "_master_table" ++ String c "fit".
Proof.
  unfold is_tail. destruct (strip_prefix "_master_table" s) as [r|] eqn:E.
  - apply strip_ok in E. destruct r as [|c r].
    + split; [discriminate|]. intros [c H]. rewrite E in H. discriminate.
    + rewrite String.eqb_eq. split; [intros ->; exists c; exact E|]. intros [c' H]. rewrite E in H. injection H. intros; assumption.
  - split; [discriminate|]. intros [c H]. apply strip_ok in H. rewrite H in E. discriminate.
Qed.
Lemma app_len a b : String.length (a ++ b) = (String.length a + String.length b)%nat.
Proof. induction a; cbn; congruence. Qed.
Lemma tail_len s : is_tail s = true -> String.length s = 17%nat.
Proof. rewrite tail_ok. intros [c ->]. reflexivity. Qed.
Lemma re_ok s : forall b, re_master s = Some b <-> exists c, looks_like s b c.
Proof.
  unfold looks_like. induction s as [|a s IH]; intros b.
  - cbn [re_master]. replace (is_tail "") with false by reflexivity. split; [discriminate|]. intros [c H]. apply (f_equal String.length) in H. rewrite !app_len in H. cbn in H. lia.
  - cbn [re_master]. destruct (is_tail (String a s)) eqn:T.
    + split.
      * intros E. injection E as <-. apply tail_ok in T. exact T.
      * intros [c H]. apply tail_len in T. rewrite H in T. rewrite !app_len in T. cbn in T. destruct b; [reflexivity|cbn in T; lia].
    + split.
      * destruct (re_master s) as [b'|] eqn:R; [|discriminate]. cbn. intros E. injection E as <-. destruct (proj1 (IH b') eq_refl) as [c ->]. exists c. reflexivity.
      * intros [c H]. destruct b as [|x b].
        { assert (T' : is_tail (String a s) = true) by (apply tail_ok; exists c; exact H). rewrite T' in T. discriminate. }
        cbn in H. injection H as -> H. assert (R : re_master s = Some b) by (apply IH; exists c; exact H). rewrite R. reflexivity.
Qed.
Lemma slash_ok s : has_slash s = true <-> in_directory s.
Proof.
  unfold in_directory. induction s as [|c s IH]; cbn.
  - split; [discriminate|]. intros (a & b & H). destruct a; discriminate.
  - rewrite Bool.orb_true_iff, IH. split.
    + intros [E|(a & b & ->)]; [apply Ascii.eqb_eq in E as ->; exists "", s; reflexivity|exists (String c a), b; reflexivity].
    + intros (a & b & H). destruct a as [|x a]; cbn in H; injection H as -> ->; [left; reflexivity|right; exists a, b; reflexivity].
Qed.
Lemma slash_app a b : has_slash (a ++ b) = orb (has_slash a) (has_slash b).
Proof. induction a; cbn; [reflexivity|]. rewrite IHa. apply Bool.orb_assoc. Qed.
Lemma slash_master b : has_slash (master b) = has_slash b.
Proof. unfold master. rewrite slash_app. cbn. apply Bool.orb_false_r. Qed.
Lemma app_str_assoc a b c : (a ++ b) ++ c = a ++ (b ++ c).
Proof. induction a; cbn; congruence. Qed.
Lemma app_inj a : forall b c, a ++ b = a ++ c -> b = c.
Proof. induction a; cbn; [auto|]. intros b c H. injection H as H. auto. Qed.

Lemma look_app k d e : look k (d ++ e)%list = match look k d with Some v => Some v | None => look k e end.
Proof. induction d as [|[k' v] d IH]; cbn; [reflexivity|]. destruct (String.eqb k k'); [reflexivity|apply IH]. Qed.
Lemma look_defaulted k d kv : look k (defaulted d kv) = match look k d with Some v => Some v | None => if String.eqb k (fst kv) then Some (snd kv) else None end.
Proof.
  destruct kv as [k0 v0]. unfold defaulted. cbn [fst snd]. destruct (look k0 d) as [w|] eqn:E0.
  - destruct (look k d) eqn:E; [reflexivity|]. destruct (String.eqb_spec k k0) as [->|]; [congruence|reflexivity].
  - rewrite look_app. destruct (look k d); [reflexivity|]. reflexivity.
Qed.
Lemma look_fill_gen k l : forall d, look k (fold_left defaulted l d) = match look k d with Some v => Some v | None => look k l end.
Proof.
  induction l as [|[k0 v0] l IH]; intros d; cbn [fold_left look]; [destruct (look k d); reflexivity|]. rewrite IH, look_defaulted. cbn [fst snd].
  destruct (look k d); [reflexivity|]. destruct (String.eqb k k0); reflexivity.
Qed.
Lemma look_fill k d : look k (fill d) = match look k d with Some v => Some v | None => look k rand_defaults end.
Proof. apply look_fill_gen. Qed.
