From Coq Require Import Reals Lra.
From Verif.Base Require Import Py PyLemmas.
From Verif.Model Require Import BkgGen SelectRed.
From Verif.Spec Require Import SelectRed.
From Verif.Proofs Require Import Radii.
From Coq Require Import Lia List. Import ListNotations.
Local Open Scope R_scope.

Lemma matched_In gals spec m : forall rows, matched gals spec m = Ok rows -> forall r, In r rows <->
  exists i0 s, In (i0, r_gal r) m /\ nth_error gals (r_gal r) = Some (r_g r) /\ nth_error spec i0 = Some s /\ r_z r = sp_z s.
Proof.
  induction m as [|[i0 i1] m IH]; intros rows H r; cbn [matched] in H.
  - injection H as <-. split; [intros []|intros (i0 & s & [] & _)].
  - destruct (nth_error gals i1) as [g|] eqn:G; [|discriminate]. destruct (nth_error spec i0) as [s|] eqn:S; [|discriminate].
    destruct (matched gals spec m) as [t|]; [|discriminate]. cbn [bind] in H. injection H as <-. specialize (IH t eq_refl r). split.
    + intros [<-|Hr]; [exists i0, s; cbn; auto|]. apply IH in Hr. destruct Hr as (i & s' & A & B). exists i, s'. split; [right; exact A|exact B].
    + intros (i & s' & [E|A] & B & C & D); [|right; apply IH; exists i, s'; auto]. injection E as -> ->. left. rewrite G in B. rewrite S in C. injection B as E1. injection C as <-.
      destruct r as [rg rr rz]. cbn in *. subst. reflexivity.
Qed.
Lemma matched_ok gals spec m : (forall i0 i1, In (i0, i1) m -> (i0 < length spec)%nat /\ (i1 < length gals)%nat) -> exists rows, matched gals spec m = Ok rows /\ length rows = length m.
Proof.
  induction m as [|[i0 i1] m IH]; intros H; cbn [matched]; [exists []; auto|]. destruct (H i0 i1 (or_introl eq_refl)) as [A B].
  destruct (nth_error gals i1) as [g|] eqn:G; [|apply nth_error_None in G; lia]. destruct (nth_error spec i0) as [s|] eqn:S; [|apply nth_error_None in S; lia].
  destruct IH as (t & -> & L); [intros; apply H; right; assumption|]. cbn [bind]. eexists. split; [reflexivity|]. cbn. lia.
Qed.
Lemma marks_spec mn sc nsig modes : forall zb rows mark, (length modes < length zb)%nat -> length mark = length rows ->
  exists mk, marks mn sc nsig modes zb rows mark = Ok mk /\ length mk = length rows /\
  forall i r, nth_error rows i = Some r -> (nth_error mk i = Some true <->
     nth_error mark i = Some true \/ exists k j a b, nth_error modes k = Some j /\ nth_error zb k = Some a /\ nth_error zb (S k) = Some b /\ a < r_z r < b /\ is_red mn sc nsig j (r_g r) (r_z r)).
Proof.
  induction modes as [|j modes IH]; intros zb rows mark L M; cbn [marks].
  - exists mark. split; [reflexivity|]. split; [exact M|]. intros i r Hr. split; [auto|]. intros [H|(k & j & a & b & K & _)]; [exact H|]. destruct k; discriminate.
  - destruct zb as [|z0 [|z1 zb']]; [cbn in L; lia|cbn in L; lia|]. set (f := fun bm : row * bool => _). 
    destruct (IH (z1 :: zb') rows (map f (combine rows mark))) as (mk & E & LM & S); [cbn in L |- *; lia|rewrite map_length, combine_length; lia|].
    exists mk. split; [exact E|]. split; [exact LM|]. intros i r Hr. rewrite (S i r Hr). clear S E IH.
    assert (Q : nth_error (map f (combine rows mark)) i = Some true <-> nth_error mark i = Some true \/ (z0 < r_z r < z1 /\ is_red mn sc nsig j (r_g r) (r_z r))).
    { destruct (nth_error mark i) as [bm|] eqn:EM; [|apply nth_error_None in EM; assert (i < length rows)%nat by (apply nth_error_Some; congruence); lia].
      assert (EC : nth_error (combine rows mark) i = Some (r, bm)).
      { clear - Hr EM. revert mark i Hr EM. induction rows as [|x l IH]; intros [|y mk] [|i] Hr EM; cbn in *; try discriminate; [congruence|]. apply IH; assumption. }
      rewrite nth_error_map, EC. cbn [option_map]. unfold f. cbn [fst snd]. unfold red_in, is_red. destruct bm; cbn [orb].
      - split; [intros _; left; reflexivity|reflexivity].
      - split.
        + intros H. injection H as H. rewrite !andb_true_iff in H. destruct H as [[H1 H2] H3]. apply Rltb_iff in H1. apply Rltb_iff in H2. apply Rltb_iff in H3. right. auto.
        + intros [H|[[H1 H2] H3]]; [discriminate|]. f_equal. rewrite !andb_true_iff. repeat split; apply Rltb_iff; assumption. }
    rewrite Q. split.
    + intros [[H|H]|(k & j' & a & b & A)]; [left; exact H|right; exists 0%nat, j, z0, z1; cbn; tauto|right; exists (Datatypes.S k), j', a, b; cbn [nth_error] in *; exact A].
    + intros [H|(k & j' & a & b & A1 & A2 & A3 & A4 & A5)]; [left; left; exact H|]. destruct k as [|k]; cbn [nth_error] in *; [|right; exists k, j', a, b; auto].
      injection A1 as <-. injection A2 as <-. injection A3 as <-. left. right. auto.
Qed.
Lemma filter_combine {A} (l : list A) (mk : list bool) x : length mk = length l ->
  (In x (map fst (filter snd (combine l mk))) <-> exists i, nth_error l i = Some x /\ nth_error mk i = Some true).
Proof.
  revert mk. induction l as [|y l IH]; intros [|b mk] L; try (cbn in L; lia); cbn [combine filter map].
  - split; [intros []|intros (i & H & _); destruct i; discriminate].
  - cbn in L. assert (Q := IH mk ltac:(lia)). destruct b; cbn [filter snd map fst].
    + split.
      * intros [<-|H]; [exists 0%nat; auto|]. apply Q in H. destruct H as (i & H). exists (S i). exact H.
      * intros ([|i] & H1 & H2); cbn in *; [left; congruence|right; apply Q; eauto].
    + split.
      * intros H. apply Q in H. destruct H as (i & H). exists (S i). exact H.
      * intros ([|i] & H1 & H2); cbn in *; [discriminate|]. apply Q. eauto.
Qed.
