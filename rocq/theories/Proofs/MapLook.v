From Coq Require Import QArith Qabs.
From Verif.Base Require Import Py PyLemmas.
From Verif.Model Require Import MapLook.
From Verif.Spec Require Import MapLook.
From Coq Require Import Lqa Lia List. Import ListNotations.
Local Open Scope Q_scope.

Lemma beyond_iff dec : beyond dec = true <-> ~ on_sky dec.
Proof.
  unfold beyond, on_sky. rewrite Qlt_bool_iff. split.
  - intros H [A B]. apply (Qlt_not_le _ _ H). apply Qabs_Qle_condition. lra.
  - intros H. apply Qnot_le_lt. intros A. apply H. apply Qabs_Qle_condition in A. lra.
Qed.
Lemma beyond_false dec : beyond dec = false <-> on_sky dec.
Proof.
  split; intros H.
  - unfold beyond in H. apply Qlt_bool_false in H. apply Qabs_Qle_condition in H. unfold on_sky. lra.
  - destruct (beyond dec) eqn:E; [apply beyond_iff in E; contradiction|reflexivity].
Qed.
Lemma clip_on dec : on_sky (clipQ (-(90)) 90 dec) /\ (on_sky dec -> clipQ (-(90)) 90 dec == dec).
Proof.
  unfold on_sky, clipQ, Qmin2, Qmax2. destruct (Qle_bool dec (-(90))) eqn:A; [apply Qle_bool_iff in A|apply Qle_bool_false in A]; destruct (Qle_bool _ 90) eqn:B; try (apply Qle_bool_iff in B); try (apply Qle_bool_false in B); split; try (intros [? ?]); lra.
Qed.
Lemma clip_same dec : on_sky dec -> -(90) < dec -> clipQ (-(90)) 90 dec = dec.
Proof.
  unfold on_sky, clipQ, Qmin2, Qmax2. intros [A B] C. destruct (Qle_bool dec (-(90))) eqn:E; [apply Qle_bool_iff in E; lra|]. destruct (Qle_bool dec 90) eqn:F; [reflexivity|apply Qle_bool_false in F; lra].
Qed.
Lemma values_ok {A} pix (m : hmap A) out pos : (forall p, In p pos -> exists v, pix (fst p) (snd p) = Ok v) -> exists vs, values_pos pix m out pos = Ok vs /\
  Forall2 (fun p a => exists v, pix (fst p) (snd p) = Ok v /\ a = match m v with Some x => x | None => out end) pos vs.
Proof.
  induction pos as [|p t IH]; intros H; [exists []; split; [reflexivity|constructor]|]. cbn. destruct (H p (or_introl eq_refl)) as (v & Ev). rewrite Ev. cbn [bind]. destruct IH as (vs & E & F); [intros; apply H; right; assumption|].
  unfold values_pos in E. rewrite E. cbn [bind]. eexists. split; [reflexivity|]. constructor; [exists v; auto|exact F].
Qed.
Lemma values_err {A} pix (m : hmap A) out pos p e : In p pos -> pix (fst p) (snd p) = Err e -> exists e', values_pos pix m out pos = Err e'.
Proof.
  induction pos as [|q t IH]; intros I E; [destruct I|]. cbn. destruct I as [->|I]; [rewrite E; eexists; reflexivity|]. destruct (pix (fst q) (snd q)) as [v|e1]; [|eexists; reflexivity]. cbn [bind]. destruct (IH I E) as (e' & E'). unfold values_pos in E'. rewrite E'. eexists; reflexivity.
Qed.
Lemma find_rev_unique {A} (f : Z * A -> Z) rows r : NoDup (map f rows) -> In r rows -> find (fun x => Z.eqb (f x) (f r)) (rev rows) = Some r.
Proof.
  intros N I. assert (G : forall l, (forall x, In x l -> In x rows) -> In r l -> find (fun x => Z.eqb (f x) (f r)) l = Some r).
  { induction l as [|x l IH]; intros S J; [destruct J|]. cbn. destruct (Z.eqb_spec (f x) (f r)) as [E|E].
    - f_equal. assert (X : In x rows) by (apply S; left; reflexivity). clear -N X I E. induction rows as [|y t IH]; [destruct I|]. cbn in N. inversion N as [|a b N1 N2]; subst. destruct X as [->|X], I as [->|I]; [reflexivity| | |apply IH; assumption].
      + exfalso. apply N1. rewrite E. apply in_map, I.
      + exfalso. apply N1. rewrite <- E. apply in_map, X.
    - destruct J as [->|J]; [congruence|]. apply IH; [intros; apply S; right; assumption|exact J]. }
  apply G; [intros x; apply in_rev|apply in_rev; rewrite rev_involutive; exact I].
Qed.
