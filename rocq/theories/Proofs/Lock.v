From Verif.Base Require Import Py PyLemmas Fn.
From Verif.Model Require Import Lock.
From Verif.Spec Require Import Lock.

(** holder according to the log (newest first) *)
Fixpoint holder (l : list event) : option nat :=
  match l with
  | [] => None
  | Acquired p :: _ => Some p
  | Released _ :: _ => None
  | Failed _ :: t => holder t
  end.
Fixpoint good (l : list event) : Prop :=
  match l with
  | [] => True
  | Acquired p :: t => holder t = None /\ good t
  | Released p :: t => holder t = Some p /\ good t
  | Failed _ :: t => good t
  end.

Lemma alternates_snoc h l e :
  alternates h (l ++ [e]) <-> alternates h l /\
   match e with
   | Acquired _ => fold_left (fun h e => match e with Acquired p => Some p | Released _ => None | Failed _ => h end) l h = None
   | Released p => fold_left (fun h e => match e with Acquired p => Some p | Released _ => None | Failed _ => h end) l h = Some p
   | Failed _ => True
   end.
Proof.
  revert h; induction l as [|a l IH]; intros h; cbn.
  - destruct e; intuition.
  - destruct a; rewrite IH; intuition.
Qed.
Lemma holder_fold l :
  fold_left (fun h e => match e with Acquired p => Some p | Released _ => None | Failed _ => h end) (rev l) None = holder l.
Proof.
  induction l as [|e l IH]; cbn; [reflexivity|]. rewrite fold_left_app. cbn. rewrite IH.
  destruct e; reflexivity.
Qed.
Lemma good_alternates l : good l -> alternates None (rev l).
Proof.
  induction l as [|e l IH]; cbn; [tauto|]. rewrite alternates_snoc, holder_fold.
  destruct e; intuition.
Qed.

Record Inv (s : st) : Prop := {
  inv_linked : forall p, pcs s p = Linked -> lock s = Some p;
  inv_held : forall p, pcs s p = Held -> lock s = Some p /\ holder (log s) = Some p;
  inv_log : forall p, holder (log s) = Some p -> lock s = Some p /\ (pcs s p = Held \/ pcs s p = Dead);
  inv_linked_log : forall p, pcs s p = Linked -> holder (log s) = None;
  inv_good : good (log s);
  inv_temps : forall p, pcs s p <> Dead ->
     (temps s p = true <-> match pcs s p with Temp _ _ _ | Linked | GiveUp => True | _ => False end);
  inv_lock : forall p, lock s = Some p -> pcs s p = Linked \/ pcs s p = Held \/ pcs s p = Dead;
  inv_ctr : forall p c m, pcs s p = Temp true c m -> c < m
}.

Lemma inv_init : Inv init.
Proof. split; cbn; try discriminate; auto. intros; split; [discriminate|tauto]. Qed.

Ltac fin I1 I2 I3 I4 I7 :=
  try solve
    [ congruence | discriminate | eauto | tauto | split; [discriminate|contradiction]
    | match goal with H : Temp _ _ _ = Temp _ _ _ |- _ => inversion H; subst; eauto; lia end
    | match goal with H : holder _ = Some _ |- _ => destruct (I3 _ H) as [? [?|?]]; (congruence || eauto) end
    | match goal with H : lock _ = Some _ |- _ => destruct (I7 _ H) as [?|[?|?]]; congruence end
    | match goal with H : pcs _ _ = Linked |- _ => pose proof (I1 _ H); pose proof (I4 _ H); congruence end
    | match goal with H : pcs _ _ = Held |- _ => destruct (I2 _ H); (congruence || eauto) end ].

Lemma inv_step s l s' : Inv s -> step s l = Some s' -> Inv s'.
Proof.
  intros [I1 I2 I3 I4 I5 I6 I7 I8]. destruct l as [p block maxtry|p|p|p|p]; cbn [step].
  - destruct (pcs s p) eqn:Ep; try discriminate. intros [= <-].
    assert (Hl : lock s <> Some p) by (intros H; destruct (I7 _ H) as [?|[?|?]]; congruence).
    destruct (block && Nat.eqb maxtry 0) eqn:Eb; split; cbn [pcs lock temps log]; intros; upd_case;
      fin I1 I2 I3 I4 I7.
    match goal with H : Temp _ _ _ = Temp _ _ _ |- _ => injection H as -> <- <- end.
    cbn in Eb. apply Nat.eqb_neq in Eb. lia.
  - destruct (pcs s p) eqn:Ep; try discriminate. destruct (lock s) as [h|] eqn:El.
    + intros [= <-].
      assert (Hh : holder (log s) <> Some p)
        by (intros H; destruct (I3 _ H) as [_ [?|?]]; congruence).
      assert (Hp : h <> p) by (intros ->; destruct (I7 _ eq_refl) as [?|[?|?]]; congruence).
      assert (Ht : temps s p = true) by (apply I6; rewrite Ep; [discriminate|exact I]).
      destruct block; [destruct (Nat.ltb_spec (S ctr) maxtry)|]; split; cbn [pcs lock temps log];
        intros; upd_case; fin I1 I2 I3 I4 I7.
    + intros [= <-].
      assert (Hn : holder (log s) = None).
      { destruct (holder (log s)) eqn:E; [|reflexivity]. destruct (I3 _ eq_refl); congruence. }
      assert (Ht : temps s p = true) by (apply I6; rewrite Ep; [discriminate|exact I]).
      split; cbn [pcs lock temps log]; intros; upd_case; fin I1 I2 I3 I4 I7.
  - destruct (pcs s p) eqn:Ep; try discriminate; intros [= <-].
    + pose proof (I1 _ Ep) as Hl. pose proof (I4 _ Ep) as Hn.
      split; cbn [pcs lock temps log holder good]; intros; upd_case; fin I1 I2 I3 I4 I7.
      all: try match goal with H : Some _ = Some _ |- _ => injection H as -> end.
      all: upd_case; fin I1 I2 I3 I4 I7.
    + split; cbn [pcs lock temps log holder good]; intros; upd_case; fin I1 I2 I3 I4 I7.
  - destruct (pcs s p) eqn:Ep; try discriminate; intros [= <-].
    destruct (I2 _ Ep) as [Hl Hh].
    assert (Htp : temps s p = false).
    { destruct (temps s p) eqn:Et; [|reflexivity]. apply I6 in Et; rewrite Ep in *; [contradiction|discriminate]. }
    split; cbn [pcs lock temps log holder good]; intros; upd_case; fin I1 I2 I3 I4 I7.
    rewrite Htp. split; [discriminate|tauto].
  - intros [= <-]. split; cbn [pcs lock temps log holder good]; intros; upd_case; fin I1 I2 I3 I4 I7.
Qed.

Lemma inv_exec s l : Inv s -> Inv (exec s l).
Proof.
  intros H. unfold exec. destruct (step s l) eqn:E; [eapply inv_step; eauto|exact H].
Qed.
Lemma inv_run ls : Inv (run ls).
Proof.
  unfold run. assert (H : forall s, Inv s -> Inv (fold_left exec ls s)).
  { induction ls as [|l ls IH]; cbn; auto. intros s Hs. apply IH, inv_exec, Hs. }
  apply H, inv_init.
Qed.

Lemma mutex ls p q : pcs (run ls) p = Held -> pcs (run ls) q = Held -> p = q.
Proof.
  intros Hp Hq. destruct (inv_run ls). destruct (inv_held0 _ Hp), (inv_held0 _ Hq). congruence.
Qed.
Lemma run_alternates ls : alternates None (rev (log (run ls))).
Proof. apply good_alternates. apply inv_run. Qed.

Lemma no_temp_left ls p :
  pcs (run ls) p = Idle \/ pcs (run ls) p = Held -> temps (run ls) p = false.
Proof.
  intros H. destruct (inv_run ls). destruct (temps (run ls) p) eqn:E; [|reflexivity].
  apply inv_temps0 in E; destruct H as [H|H]; rewrite H in *; try contradiction; discriminate.
Qed.
Lemma held_lock ls p : pcs (run ls) p = Held -> lock (run ls) = Some p.
Proof. intros H. apply (inv_held _ (inv_run ls) _ H). Qed.

(** The lock stays with [p] as long as [p] does not release it or crash. *)
Lemma held_stable ls l p :
  pcs (run ls) p = Held -> l <> Release p -> l <> Crash p ->
  pcs (exec (run ls) l) p = Held /\ lock (exec (run ls) l) = Some p.
Proof.
  intros H Hr Hc. pose proof (held_lock _ _ H) as Hl.
  assert (Hp : pcs (exec (run ls) l) p = Held).
  { unfold exec. destruct (step (run ls) l) as [s'|] eqn:E; [|exact H].
    destruct l as [q b m|q|q|q|q]; cbn in E.
    - destruct (pcs (run ls) q) eqn:Eq; try discriminate. injection E as <-. cbn.
      rewrite upd_other; [exact H|congruence].
    - destruct (pcs (run ls) q) eqn:Eq; try discriminate. rewrite Hl in E. injection E as <-. cbn.
      rewrite upd_other; [exact H|congruence].
    - destruct (pcs (run ls) q) eqn:Eq; try discriminate; injection E as <-; cbn;
        (rewrite upd_other; [exact H|congruence]).
    - destruct (pcs (run ls) q) eqn:Eq; try discriminate. injection E as <-. cbn.
      rewrite upd_other; [exact H|congruence].
    - injection E as <-. cbn. rewrite upd_other; [exact H|congruence]. }
  split; [exact Hp|]. 
  assert (Hi : Inv (exec (run ls) l)) by (apply inv_exec, inv_run).
  apply (inv_held _ Hi _ Hp).
Qed.

(** A non-blocking attempt gives up only while the lock file exists, and succeeds when it does not. *)
Lemma nonblocking_outcome ls p c m :
  pcs (run ls) p = Temp false c m ->
  (lock (run ls) = None -> pcs (exec (run ls) (TryLink p)) p = Linked) /\
  (forall h, lock (run ls) = Some h -> pcs (exec (run ls) (TryLink p)) p = GiveUp).
Proof.
  intros H. unfold exec, step. rewrite H. split; [intros ->|intros h ->]; cbn; apply upd_same.
Qed.
(** A blocking call tries exactly [maxtry] times before it gives up. *)
Lemma blocking_outcome ls p c m :
  pcs (run ls) p = Temp true c m -> c < m /\
  (lock (run ls) = None -> pcs (exec (run ls) (TryLink p)) p = Linked) /\
  (forall h, lock (run ls) = Some h ->
     (S c = m -> pcs (exec (run ls) (TryLink p)) p = GiveUp) /\
     (S c < m -> pcs (exec (run ls) (TryLink p)) p = Temp true (S c) m)).
Proof.
  intros H. pose proof (inv_ctr _ (inv_run ls) _ _ _ H) as Hc. split; [exact Hc|].
  unfold exec, step. rewrite H. split; [intros ->; cbn; apply upd_same|].
  intros h ->. cbn [pcs]. rewrite upd_same.
  destruct (Nat.ltb_spec (S c) m); split; intros; try reflexivity; lia.
Qed.
