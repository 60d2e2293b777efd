From Coq Require Import String Ascii ZArith QArith.
From Verif.Base Require Import Py PyLemmas.
From Verif.Model Require Import GalStats.
From Coq Require Import Lia List. Import ListNotations.
Local Open Scope string_scope.

Lemma prefix_app p s : prefix p (p ++ s) = true.
Proof. induction p as [|c p IH]; cbn; [destruct s; reflexivity|]. destruct (ascii_dec c c); [exact IH|congruence]. Qed.
Lemma app_nil_r_s s : s ++ "" = s. Proof. induction s as [|c s IH]; cbn; congruence. Qed.
Lemma before_last_suffix b : before_last "_ind" (b ++ "_ind") = Some b.
Proof. induction b as [|c b IH]; [reflexivity|]. cbn [append]. cbn [before_last]. rewrite IH. reflexivity. Qed.
Lemma band_of_ind b : b <> "ref" -> band_of (b ++ "_ind") = Some b.
Proof. intros H. unfold band_of. rewrite before_last_suffix. destruct (String.eqb b "ref") eqn:E; [apply String.eqb_eq in E; contradiction|reflexivity]. Qed.

Lemma py_set_pos {A} (l : list A) k x : (k < length l)%nat -> exists l', py_set l (Z.of_nat k) x = Ok l' /\ length l' = length l /\
  nth_error l' k = Some x /\ forall j, j <> k -> nth_error l' j = nth_error l j.
Proof.
  intros H. unfold py_set. replace (Z.of_nat k <? 0)%Z with false by (symmetry; apply Z.ltb_ge; lia).
  replace (0 <=? Z.of_nat k)%Z with true by (symmetry; apply Z.leb_le; lia). replace (Z.of_nat k <? Z.of_nat (length l))%Z with true by (symmetry; apply Z.ltb_lt; lia).
  cbn [andb]. rewrite Nat2Z.id. eexists. split; [reflexivity|]. assert (F : length (firstn k l) = k) by (rewrite firstn_length; lia).
  split; [rewrite app_length, F; cbn [length]; rewrite skipn_length; lia|]. split.
  - rewrite nth_error_app2 by lia. rewrite F, Nat.sub_diag. reflexivity.
  - intros j Hj. destruct (Nat.lt_ge_cases j k) as [L|L].
    + rewrite nth_error_app1 by lia. clear - L. revert l j L. induction k as [|k IH]; intros [|y l] [|j] L; cbn; try lia; try reflexivity. apply IH. lia.
    + rewrite nth_error_app2 by lia. rewrite F. destruct (j - k)%nat as [|d] eqn:E; [lia|]. cbn [nth_error].
      replace j with (S k + d)%nat by lia. clear. generalize (S k) as m. intros m. revert l. induction m as [|m IH]; intros l; [reflexivity|]. destruct l; cbn; [destruct d; reflexivity|apply IH].
Qed.
Lemma py_set_any {A} (l : list A) v x l' : py_set l v x = Ok l' -> length l' = length l /\
  forall j y, nth_error l' j = Some y -> nth_error l j = Some y \/ (y = x /\ (v = Z.of_nat j \/ v = Z.of_nat j - Z.of_nat (length l))%Z).
Proof.
  intros H. assert (E : exists k, (k < length l)%nat /\ py_set l (Z.of_nat k) x = Ok l' /\ (v = Z.of_nat k \/ v = Z.of_nat k - Z.of_nat (length l))%Z).
  { unfold py_set in H. set (k := if (v <? 0)%Z then (v + Z.of_nat (length l))%Z else v) in *. destruct ((0 <=? k)%Z && (k <? Z.of_nat (length l))%Z) eqn:B; [|discriminate].
    pose proof B as B'. apply andb_true_iff in B'. destruct B' as [B1 B2]. apply Z.leb_le in B1. apply Z.ltb_lt in B2. exists (Z.to_nat k). split; [lia|]. rewrite Z2Nat.id by lia. split.
    - unfold py_set. replace (k <? 0)%Z with false by (symmetry; apply Z.ltb_ge; lia). rewrite B. exact H.
    - unfold k. destruct (v <? 0)%Z eqn:N; [right|left]; lia. }
  destruct E as (k & K & E & V). destruct (py_set_pos l k x K) as (l'' & E' & L & N & O). rewrite E in E'. injection E' as <-. split; [exact L|].
  intros j y Hj. destruct (Nat.eq_dec j k) as [->|D]; [right; split; [congruence|exact V]|left; rewrite <- O; assumption].
Qed.
Lemma fill_sound entries : forall bands r, fill entries bands = Ok r -> length r = length bands /\
  forall j b, nth_error r j = Some (Some b) -> nth_error bands j = Some (Some b) \/
    exists name v, In (name, v) entries /\ band_of name = Some b /\ (v = Z.of_nat j \/ v = Z.of_nat j - Z.of_nat (length bands))%Z.
Proof.
  induction entries as [|[name v] t IH]; intros bands r H; cbn [fill] in H.
  - injection H as <-. auto.
  - destruct (band_of name) as [b0|] eqn:B.
    + destruct (py_set bands v (Some b0)) as [bands'|] eqn:S; [|discriminate]. cbn [bind] in H. destruct (py_set_any _ _ _ _ S) as [L O]. destruct (IH _ _ H) as [L' O']. split; [lia|].
      intros j b Hj. destruct (O' j b Hj) as [K|(n' & v' & I & E & V)].
      * destruct (O j _ K) as [K'|[E V]]; [left; exact K'|]. right. injection E as <-. exists name, v. split; [left; reflexivity|auto].
      * right. exists n', v'. rewrite L in V. split; [right; exact I|auto].
    + destruct (IH _ _ H) as [L O]. split; [exact L|]. intros j b Hj. destruct (O j b Hj) as [K|(n' & v' & I & E)]; [left; exact K|right]. exists n', v'. split; [right; exact I|exact E].
Qed.
Definition in_bounds (entries : list (string * Z)) (n : nat) : Prop :=
  forall name v b, In (name, v) entries -> band_of name = Some b -> (0 <= v < Z.of_nat n)%Z.
Lemma fill_complete entries : forall bands, in_bounds entries (length bands) -> 
  exists r, fill entries bands = Ok r /\ length r = length bands /\
  forall k, (exists name b, In (name, Z.of_nat k) entries /\ band_of name = Some b) \/ (exists b, nth_error bands k = Some (Some b)) -> exists b, nth_error r k = Some (Some b).
Proof.
  induction entries as [|[name v] t IH]; intros bands IB; cbn [fill].
  - exists bands. split; [reflexivity|]. split; [reflexivity|]. intros k [(n & b & [] & _)|H]; exact H.
  - assert (IBt : in_bounds t (length bands)) by (intros n w b Hn; apply (IB n w b); right; exact Hn).
    destruct (band_of name) as [b0|] eqn:B.
    + specialize (IB name v b0 (or_introl eq_refl) B). replace v with (Z.of_nat (Z.to_nat v)) by lia. destruct (py_set_pos bands (Z.to_nat v) (Some b0)) as (l' & E & L & N & O); [lia|].
      rewrite E. cbn [bind]. destruct (IH l') as (r & R & LR & C); [rewrite L; exact IBt|]. exists r. split; [exact R|]. split; [lia|]. intros k H. apply C.
      destruct (Nat.eq_dec k (Z.to_nat v)) as [->|D]; [right; eauto|]. destruct H as [(n & b & [Hin|Hin] & Hb)|(b & Hb)].
      * injection Hin as _ Hv. lia.
      * left. eauto.
      * right. rewrite O by exact D. eauto.
    + destruct (IH bands IBt) as (r & R & LR & C). exists r. split; [exact R|]. split; [exact LR|]. intros k H. apply C. destruct H as [(n & b & [Hin|Hin] & Hb)|H]; [injection Hin as -> _; congruence|left; eauto|right; exact H].
Qed.
Lemma all_known_some l r : all_known l = Some r <-> l = map Some r.
Proof.
  revert r. induction l as [|[b|] t IH]; intros r; cbn [all_known].
  - split; [intros [= <-]; reflexivity|destruct r; [reflexivity|discriminate]].
  - destruct (all_known t) as [r'|] eqn:E.
    + split; [intros [= <-]; cbn; f_equal; apply IH; reflexivity|]. destruct r as [|b' r]; [discriminate|]. cbn. intros [= -> H]. apply IH in H. congruence.
    + split; [discriminate|]. destruct r as [|b' r]; [discriminate|]. cbn. intros [= -> H]. apply IH in H. discriminate.
  - split; [discriminate|destruct r; discriminate].
Qed.
Lemma all_known_ok l : (forall k, (k < length l)%nat -> exists b, nth_error l k = Some (Some b)) -> exists r, all_known l = Some r.
Proof.
  induction l as [|[b|] t IH]; intros H; cbn; [eauto| |].
  - destruct IH as (r & ->); [intros k Hk; apply (H (S k)); cbn; lia|]. eauto.
  - destruct (H 0%nat) as (b & E); [cbn; lia|]. discriminate.
Qed.
