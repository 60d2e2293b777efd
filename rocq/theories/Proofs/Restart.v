(** Proofs about restarts. *)
From Coq Require Import ZArith.
From Verif.Base Require Import Py PyLemmas.
From Verif.Model Require Import Restart.
From Verif.Spec Require Import Restart.

(** every file is missing or what is expected, later files only after earlier ones *)
Inductive good (R : runs) : disk -> Prop :=
| G0 : good R empty_disk
| G1 c : r_first R = Some c -> good R (mkDisk (Full c) Absent Absent Absent)
| G2 c l : r_first R = Some c -> r_like R c = Some l -> good R (mkDisk (Full c) (Full l) Absent Absent)
| G3 c l p m : r_first R = Some c -> r_like R c = Some l -> r_perc R l = Some (p, m) -> good R (mkDisk (Full c) (Full l) (Full p) (Full m)).

Lemma good_full R d : good R d -> run_full R true d = expected R.
Proof.
  intros H. unfold run_full, worker, expected. destruct H as [|c E1|c l E1 E2|c l p m E1 E2 E3]; cbn.
  - destruct (r_first R) as [c|]; [|reflexivity]. unfold do_like. cbn. destruct (r_like R c) as [l|]; [|reflexivity].
    unfold do_perc. cbn. destruct (r_perc R l) as [[p m]|]; reflexivity.
  - rewrite E1. unfold do_like. cbn. destruct (r_like R c) as [l|]; [|reflexivity].
    unfold do_perc. cbn. destruct (r_perc R l) as [[p m]|]; reflexivity.
  - rewrite E1, E2. unfold do_like. cbn. unfold do_perc. cbn. destruct (r_perc R l) as [[p m]|]; reflexivity.
  - rewrite E1, E2, E3. reflexivity.
Qed.

Local Ltac step := match goal with |- context [firstn ?k (_ :: _)] => destruct k as [|k]; cbn [firstn fold_left after_ev] end.
Local Ltac bad := let H := fresh in intros H; exfalso; unfold not_writing, set_first, set_like, set_perc, set_mem in H; cbn in H; intuition congruence.
Lemma good_step R d k : good R d -> not_writing (run_once R true k d) -> good R (run_once R true k d).
Proof.
  intros H. unfold run_once, crash, worker.
  assert (P : forall c l k, r_first R = Some c -> r_like R c = Some l ->
    let d := mkDisk (Full c) (Full l) Absent Absent in
    not_writing (fold_left after_ev (firstn k (fst (do_perc R true d))) d) -> good R (fold_left after_ev (firstn k (fst (do_perc R true d))) d)).
  { intros c l k0 E1 E2. cbn. unfold do_perc. cbn. destruct (r_perc R l) as [[p m]|] eqn:E3; cbn.
    - do 2 (step; [intros _; apply G2; assumption|]). step; [bad|]. step; [bad|]. step; [bad|].
      rewrite firstn_nil. intros _. apply G3; assumption.
    - step; [intros _; apply G2; assumption|]. rewrite firstn_nil. intros _. apply G2; assumption. }
  assert (L : forall c k, r_first R = Some c -> let d := mkDisk (Full c) Absent Absent Absent in
    not_writing (fold_left after_ev (firstn k (fst (do_like R true d))) d) -> good R (fold_left after_ev (firstn k (fst (do_like R true d))) d)).
  { intros c k0 E1. cbn -[do_like]. unfold do_like. cbn -[do_perc]. destruct (r_like R c) as [l|] eqn:E2; cbn -[do_perc].
    - unfold set_like. cbn [d_first d_like d_perc d_mem]. destruct (do_perc R true (mkDisk (Full c) (Full l) Absent Absent)) as [evs r] eqn:Ep. cbn [fst].
      do 2 (step; [intros _; apply G1; assumption|]). step; [bad|].
      specialize (P c l k0 E1 E2). cbn -[do_perc] in P. rewrite Ep in P. exact P.
    - step; [intros _; apply G1; assumption|]. rewrite firstn_nil. intros _. apply G1; assumption. }
  destruct H as [|c E1|c l E1 E2|c l p m E1 E2 E3]; cbn [exists_file d_first empty_disk andb].
  - destruct (r_first R) as [c|] eqn:E1; cbn -[do_like].
    + unfold set_first. cbn [d_first d_like d_perc d_mem empty_disk]. destruct (do_like R true (mkDisk (Full c) Absent Absent Absent)) as [evs r] eqn:El. cbn [fst].
      do 2 (step; [intros _; apply G0|]). step; [bad|]. specialize (L c k eq_refl). cbn -[do_like] in L. rewrite El in L. exact L.
    + step; [intros _; apply G0|]. rewrite firstn_nil. intros _. apply G0.
  - exact (L c k E1).
  - unfold do_like. cbn [d_like exists_file andb]. exact (P c l k E1 E2).
  - cbn. rewrite firstn_nil. intros _. apply G3; assumption.
Qed.
Lemma quiet_good R ks : forall d, good R d -> quiet R ks d -> good R (restarts R true ks d).
Proof.
  induction ks as [|k ks IH]; intros d H Q; [exact H|]. cbn in Q. destruct Q as [Q1 Q2]. cbn. apply IH; [apply good_step; assumption|exact Q2].
Qed.

(** files that exist are never touched while checking *)
Lemma puts_keep evs (f : disk -> fstate) : forall d, (forall d', In (Put d') evs -> f d' = f d) -> f (fold_left after_ev evs d) = f d.
Proof.
  induction evs as [|e evs IH]; intros d H; [reflexivity|]. cbn. destruct e as [n|d']; cbn.
  - apply IH. intros d' Hd. apply H. right. exact Hd.
  - rewrite IH; [apply H; left; reflexivity|]. intros d'' Hd. rewrite (H d' (or_introl eq_refl)). apply H. right. exact Hd.
Qed.
Lemma perc_puts R d d' : In (Put d') (fst (do_perc R true d)) -> d_first d' = d_first d /\ d_like d' = d_like d /\ exists_file (d_perc d) = false.
Proof.
  unfold do_perc. destruct (exists_file (d_perc d)); cbn; [tauto|]. destruct (read_file (d_like d)); cbn; [|tauto]. destruct (r_perc R a) as [[p m]|]; cbn.
  - intros [H|[H|[H|[H|[H|[]]]]]]; try discriminate; injection H as <-; cbn; auto.
  - intros [H|[]]; discriminate.
Qed.
Lemma like_puts R d d' : In (Put d') (fst (do_like R true d)) -> d_first d' = d_first d /\ (exists_file (d_like d) = true -> d_like d' = d_like d) /\
  (exists_file (d_perc d) = true -> d_perc d' = d_perc d /\ d_mem d' = d_mem d).
Proof.
  unfold do_like. destruct (exists_file (d_like d)) eqn:E; cbn [andb].
  - intros H. destruct (perc_puts R d d' H) as (A & B & C). split; [exact A|]. split; [auto|]. congruence.
  - destruct (read_file (d_first d)) as [c|]; cbn; [|tauto]. destruct (r_like R c) as [l|]; cbn; [|intros [H|[]]; discriminate].
    destruct (do_perc R true (set_like d (Full l))) as [evs r] eqn:Ep. cbn. intros [H|[H|[H|H]]]; try discriminate; try (injection H as <-; cbn; repeat split; auto; congruence).
    assert (H' : In (Put d') (fst (do_perc R true (set_like d (Full l))))) by (rewrite Ep; exact H).
    destruct (perc_puts R _ d' H') as (A & B & C). cbn in *. split; [exact A|]. split; [congruence|]. congruence.
Qed.
Lemma worker_puts R d d' : In (Put d') (fst (worker R true d)) -> (exists_file (d_first d) = true -> d_first d' = d_first d) /\
  (exists_file (d_like d) = true -> d_like d' = d_like d) /\ (exists_file (d_perc d) = true -> d_perc d' = d_perc d /\ d_mem d' = d_mem d).
Proof.
  unfold worker. destruct (exists_file (d_first d)) eqn:E; cbn [andb].
  - intros H. destruct (like_puts R d d' H) as (A & B & C). auto.
  - destruct (r_first R) as [c|]; cbn; [|intros [H|[]]; discriminate].
    destruct (do_like R true (set_first d (Full c))) as [evs r] eqn:Ep. cbn. intros [H|[H|[H|H]]]; try discriminate; try (injection H as <-; cbn; repeat split; auto; congruence).
    assert (H' : In (Put d') (fst (do_like R true (set_first d (Full c))))) by (rewrite Ep; exact H).
    destruct (like_puts R _ d' H') as (A & B & C). cbn in *. split; [congruence|]. split; [exact B|exact C].
Qed.
Lemma In_firstn {A} (l : list A) k x : In x (firstn k l) -> In x l.
Proof. intros H. rewrite <- (firstn_skipn k l). apply in_or_app. left. exact H. Qed.
Lemma once_keeps R d k : let d' := run_once R true k d in (exists_file (d_first d) = true -> d_first d' = d_first d) /\
  (exists_file (d_like d) = true -> d_like d' = d_like d) /\ (exists_file (d_perc d) = true -> d_perc d' = d_perc d /\ d_mem d' = d_mem d).
Proof.
  cbn. unfold run_once, crash. split; [|split; [|intros E; split]].
  - intros E. apply (puts_keep _ d_first). intros d' H. apply In_firstn in H. apply (worker_puts R d d' H), E.
  - intros E. apply (puts_keep _ d_like). intros d' H. apply In_firstn in H. apply (worker_puts R d d' H), E.
  - apply (puts_keep _ d_perc). intros d' H. apply In_firstn in H. apply (worker_puts R d d' H), E.
  - apply (puts_keep _ d_mem). intros d' H. apply In_firstn in H. apply (worker_puts R d d' H), E.
Qed.
Lemma restarts_keep R ks : forall d, let d' := restarts R true ks d in (exists_file (d_first d) = true -> d_first d' = d_first d) /\
  (exists_file (d_like d) = true -> d_like d' = d_like d) /\ (exists_file (d_perc d) = true -> d_perc d' = d_perc d /\ d_mem d' = d_mem d).
Proof.
  induction ks as [|k ks IH]; intros d; cbn; [auto|]. fold (restarts R true ks (run_once R true k d)). destruct (once_keeps R d k) as (A & B & C). destruct (IH (run_once R true k d)) as (A' & B' & C'). cbn in *.
  split; [|split].
  - intros E. rewrite A' by (rewrite A; assumption). apply A, E.
  - intros E. rewrite B' by (rewrite B; assumption). apply B, E.
  - intros E. destruct (C E) as [C1 C2]. destruct C' as [C1' C2']; [rewrite C1; exact E|]. split; congruence.
Qed.
Lemma nocheck R d c l p m : r_first R = Some c -> r_like R c = Some l -> r_perc R l = Some (p, m) -> run_full R false d = mkDisk (Full c) (Full l) (Full p) (Full m).
Proof.
  intros E1 E2 E3. unfold run_full, worker. rewrite Bool.andb_false_r, E1. unfold do_like. rewrite Bool.andb_false_r. cbn. rewrite E2.
  unfold do_perc. rewrite Bool.andb_false_r. cbn. rewrite E3. reflexivity.
Qed.
Lemma comp_skip R d n : In (Comp n) (fst (worker R true d)) ->
  (n = 0 /\ d_first d = Absent) \/ (n = 1 /\ d_like d = Absent) \/ (n = 2 /\ d_perc d = Absent).
Proof.
  assert (P : forall d, In (Comp n) (fst (do_perc R true d)) -> n = 2 /\ d_perc d = Absent).
  { intros d0. unfold do_perc. destruct (d_perc d0); cbn; try tauto. destruct (read_file (d_like d0)); cbn; [|tauto]. destruct (r_perc R a) as [[p m]|]; cbn.
    - intros [H|[H|[H|[H|[H|[]]]]]]; try discriminate. injection H as <-. auto.
    - intros [H|[]]. injection H as <-. auto. }
  assert (L : forall d, In (Comp n) (fst (do_like R true d)) -> (n = 1 /\ d_like d = Absent) \/ (n = 2 /\ d_perc d = Absent)).
  { intros d0. unfold do_like. destruct (d_like d0) eqn:E; cbn [exists_file andb]; [|intros H; right; apply P, H|intros H; right; apply P, H].
    destruct (read_file (d_first d0)) as [c|]; cbn; [|tauto]. destruct (r_like R c) as [l|]; cbn; [|intros [H|[]]; injection H as <-; auto].
    destruct (do_perc R true (set_like d0 (Full l))) as [evs r] eqn:Ep. cbn. intros [H|[H|[H|H]]]; try discriminate; [injection H as <-; auto|].
    right. apply (P (set_like d0 (Full l))). rewrite Ep. exact H. }
  unfold worker. destruct (d_first d) eqn:E; cbn [exists_file andb]; [|intros H; right; apply L, H|intros H; right; apply L, H].
  destruct (r_first R) as [c|]; cbn; [|intros [H|[]]; injection H as <-; auto].
  destruct (do_like R true (set_first d (Full c))) as [evs r] eqn:Ep. cbn. intros [H|[H|[H|H]]]; try discriminate; [injection H as <-; auto|].
  right. apply (L (set_first d (Full c))). rewrite Ep. exact H.
Qed.
