(** Lemmas on what a run holds. *)
From Coq Require Import List.
From Verif.Base Require Import Py.
From Verif.Model Require Import Release.
From Verif.Spec Require Import Release.
From Coq Require Import Lia. Import ListNotations.

Lemma store_In h t x : In x (store h t) <-> In x h \/ x = t.
Proof. unfold store. destruct (in_dec thing_dec t h); [split; [tauto|intros [H| ->]; assumption]|]. rewrite in_app_iff. cbn. intuition. Qed.
Lemma stores_In l h x : In x (fold_left store l h) <-> In x h \/ In x l.
Proof. revert h. induction l as [|t l IH]; intros h; cbn [fold_left]; [cbn; tauto|]. rewrite IH, store_In. cbn. intuition. Qed.
Lemma all_things t : In t things.
Proof. destruct t; cbn; tauto. Qed.
Lemma release_all_ok l : NoDup l -> forall h, (forall t, In t l -> In t h) -> exists h', release_all h l = Ok h' /\ forall x, In x h' <-> In x h /\ ~ In x l.
Proof.
  induction 1 as [|t l N D IH]; intros h H; cbn [release_all]; [exists h; cbn; split; [reflexivity|tauto]|].
  unfold release. destruct (in_dec thing_dec t h) as [I|I]; [|destruct I; apply H; left; reflexivity]. cbn [bind].
  destruct (IH (remove thing_dec t h)) as (h' & E & X).
  { intros x Hx. apply in_in_remove; [intros ->; exact (N Hx)|apply H; right; exact Hx]. }
  exists h'. split; [exact E|]. intros x. rewrite X. split.
  - intros [R K]. apply in_remove in R as [R1 R2]. split; [exact R1|]. intros [->|Q]; [apply R2; reflexivity|exact (K Q)].
  - intros [R K]. split; [apply in_in_remove; [intros ->; apply K; left; reflexivity|exact R]|intros Q; apply K; right; exact Q].
Qed.
Lemma cleanup_ok h : (forall t, In t h) -> cleanup h = Ok [].
Proof.
  intros H. destruct (release_all_ok [Gals; Bkg; Cbkg; ZredBkg; ZredStr; DepthStr; ZlambdaCorr; MaskOf; CosmoOf]) with (h := h) as (h' & E & X).
  - repeat constructor; cbn; intuition discriminate.
  - intros t _. apply H.
  - unfold cleanup. rewrite E. f_equal. destruct h' as [|x r]; [reflexivity|]. exfalso. destruct (proj1 (X x) (or_introl eq_refl)) as [_ K]. apply K. destruct x; cbn; tauto.
Qed.
