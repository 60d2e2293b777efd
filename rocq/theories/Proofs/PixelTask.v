From Verif.Base Require Import Py PyLemmas.
From Verif.Model Require Import PixelTask.
From Verif.Spec Require Import PixelTask.
From Coq Require Import Lia List. Import ListNotations.

(** the five states of a pixel *)
Inductive phase (r : runs) (d : fs) : Prop :=
| PhA : absent d First_cat -> absent d Like_cat -> absent d Final_cat -> absent d Final_mem -> phase r d
| PhB a : holds d First_cat a -> first_ok r a -> absent d Like_cat -> absent d Final_cat -> absent d Final_mem -> phase r d
| PhC a b : holds d First_cat a -> first_ok r a -> holds d Like_cat b -> like_ok r a b -> absent d Final_cat -> absent d Final_mem -> phase r d
| PhD a b c : holds d First_cat a -> first_ok r a -> holds d Like_cat b -> like_ok r a b -> holds d Final_cat c -> final_ok r b c -> absent d Final_mem -> phase r d
| PhE a b c m n : holds d First_cat a -> first_ok r a -> holds d Like_cat b -> like_ok r a b -> holds d Final_cat c ->
    r_perc r n b = Some (c, Some m) -> holds d Final_mem m -> phase r d.

Lemma holds_inj d n t t' : holds d n t -> holds d n t' -> t = t'.
Proof. unfold holds. intros H H'. rewrite H in H'. injection H' as ->. reflexivity. Qed.
Lemma holds_absent d n t : holds d n t -> absent d n -> False.
Proof. unfold holds, absent. intros -> H. discriminate. Qed.

Lemma sound_phase r d : sound r d <-> phase r d.
Proof.
  split.
  - intros (H1 & H2 & H3 & H4).
    destruct H1 as [H1|(a & H1 & A1)].
    { assert (L : absent d Like_cat) by (destruct H2 as [H2|(t & t' & h & _)]; [exact H2|destruct (holds_absent _ _ _ h H1)]).
      assert (F : absent d Final_cat) by (destruct H3 as [H3|(t & t' & h & _)]; [exact H3|destruct (holds_absent _ _ _ h L)]).
      assert (M : absent d Final_mem) by (destruct H4 as [H4|(t & t' & m & n & h & _)]; [exact H4|destruct (holds_absent _ _ _ h L)]).
      constructor 1; assumption. }
    destruct H2 as [H2|(a' & b & Ha & H2 & A2)].
    { assert (F : absent d Final_cat) by (destruct H3 as [H3|(t & t' & h & _)]; [exact H3|destruct (holds_absent _ _ _ h H2)]).
      assert (M : absent d Final_mem) by (destruct H4 as [H4|(t & t' & m & n & h & _)]; [exact H4|destruct (holds_absent _ _ _ h H2)]).
      econstructor 2; eassumption. }
    assert (a' = a) by exact (holds_inj _ _ _ _ Ha H1). subst a'. clear Ha.
    destruct H3 as [H3|(b' & c & Hb & H3 & A3)].
    { assert (M : absent d Final_mem) by (destruct H4 as [H4|(t & t' & m & n & _ & h & _)]; [exact H4|destruct (holds_absent _ _ _ h H3)]).
      econstructor 3; eassumption. }
    assert (b' = b) by exact (holds_inj _ _ _ _ Hb H2). subst b'. clear Hb.
    destruct H4 as [H4|(b' & c' & m & n & Hb & Hc & H4 & A4)].
    { econstructor 4; eassumption. }
    assert (b' = b) by exact (holds_inj _ _ _ _ Hb H2). assert (c' = c) by exact (holds_inj _ _ _ _ Hc H3). subst b' c'.
    econstructor 5; eassumption.
  - intros [ |a|a b|a b c|a b c m n]; unfold sound; repeat match goal with |- _ /\ _ => split end; eauto 9.
    right. exists b, c. split; [assumption|]. split; [assumption|]. exists n, (Some m). assumption.
Qed.

Lemma write_same d n t : write d (n, t) n = d n ++ [t].
Proof. unfold write. cbn. destruct n as [[] [] []]; reflexivity. Qed.
Lemma present_absent d n : absent d n -> present d n = false.
Proof. unfold absent, present. intros ->. reflexivity. Qed.
Lemma present_holds d n t : holds d n t -> present d n = true.
Proof. unfold holds, present. intros ->. reflexivity. Qed.
Lemma read_holds d n t : holds d n t -> read d n = Ok t.
Proof. unfold holds, read. intros ->. reflexivity. Qed.
Lemma read_absent d n : absent d n -> read d n = Err OSError.
Proof. unfold absent, read. intros ->. reflexivity. Qed.
Lemma fname_eqb_iff a b : fname_eqb a b = true <-> a = b.
Proof.
  split; [|intros ->; destruct b as [[] [] []]; reflexivity].
  destruct a as [[] [] []], b as [[] [] []]; cbn; congruence.
Qed.
Lemma write_other d n m t : n <> m -> write d (m, t) n = d n.
Proof.
  intros H. unfold write. cbn [fst]. destruct (fname_eqb n m) eqn:E; [|reflexivity]. apply fname_eqb_iff in E. contradiction.
Qed.
Lemma holds_write d n t : absent d n -> holds (write d (n, t)) n t.
Proof. unfold absent, holds. intros H. rewrite write_same, H. reflexivity. Qed.
Lemma holds_other d n m t t' : n <> m -> holds d n t -> holds (write d (m, t')) n t.
Proof. unfold holds. intros H. rewrite write_other by exact H. auto. Qed.
Lemma absent_other d n m t' : n <> m -> absent d n -> absent (write d (m, t')) n.
Proof. unfold absent. intros H. rewrite write_other by exact H. auto. Qed.

(** single steps *)
Lemma step_A r d t : absent d First_cat -> absent d Like_cat -> absent d Final_cat -> absent d Final_mem -> first_ok r t ->
  let d' := write d (First_cat, t) in
  holds d' First_cat t /\ absent d' Like_cat /\ absent d' Final_cat /\ absent d' Final_mem.
Proof.
  intros. cbv zeta. split; [apply holds_write; assumption|].
  repeat split; (apply absent_other; [discriminate|assumption]).
Qed.
Lemma step_B d a t : holds d First_cat a -> absent d Like_cat -> absent d Final_cat -> absent d Final_mem ->
  let d' := write d (Like_cat, t) in
  holds d' First_cat a /\ holds d' Like_cat t /\ absent d' Final_cat /\ absent d' Final_mem.
Proof.
  intros. cbv zeta. split; [apply holds_other; [discriminate|assumption]|]. split; [apply holds_write; assumption|].
  split; (apply absent_other; [discriminate|assumption]).
Qed.
Lemma step_C d a b t : holds d First_cat a -> holds d Like_cat b -> absent d Final_cat -> absent d Final_mem ->
  let d' := write d (Final_cat, t) in
  holds d' First_cat a /\ holds d' Like_cat b /\ holds d' Final_cat t /\ absent d' Final_mem.
Proof.
  intros. cbv zeta. split; [apply holds_other; [discriminate|assumption]|]. split; [apply holds_other; [discriminate|assumption]|].
  split; [apply holds_write; assumption|]. apply absent_other; [discriminate|assumption].
Qed.
Lemma step_D d a b c t : holds d First_cat a -> holds d Like_cat b -> holds d Final_cat c -> absent d Final_mem ->
  let d' := write d (Final_mem, t) in
  holds d' First_cat a /\ holds d' Like_cat b /\ holds d' Final_cat c /\ holds d' Final_mem t.
Proof.
  intros. cbv zeta. repeat split; try (apply holds_other; [discriminate|assumption]). apply holds_write; assumption.
Qed.

(** the last stage *)
Definition stage3 (r : runs) (n : nat) (b : table) : list (fname * table) := output Final false true (r_perc r n b).
Lemma stage3_prefix r n d a b k : holds d First_cat a -> first_ok r a -> holds d Like_cat b -> like_ok r a b ->
  absent d Final_cat -> absent d Final_mem -> phase r (writes d (firstn k (stage3 r n b))).
Proof.
  intros H1 A1 H2 A2 H3 H4. unfold stage3, output. destruct (r_perc r n b) as [[c m]|] eqn:E.
  2:{ rewrite firstn_nil. econstructor 3; eassumption. }
  destruct k as [|k]; [econstructor 3; eassumption|]. cbn [firstn].
  destruct (step_C d a b c H1 H2 H3 H4) as (S1 & S2 & S3 & S4).
  assert (D : phase r (write d (Final_cat, c))).
  { econstructor 4; try eassumption. exists n, m. exact E. }
  destruct m as [m|]; [|rewrite firstn_nil; exact D]. destruct k as [|k]; [exact D|]. cbn [firstn]. rewrite firstn_nil.
  change (phase r (write (write d (Final_cat, c)) (Final_mem, m))).
  destruct (step_D _ a b c m S1 S2 S3 S4) as (T1 & T2 & T3 & T4). econstructor 5; eassumption.
Qed.
Lemma stage3_stage r n d b : holds d Like_cat b -> absent d Final_cat ->
  stage d Like_cat Final true (r_perc r n) = Ok (stage3 r n b).
Proof.
  intros H1 H2. unfold stage. change (fresh_name Final) with Final_cat. rewrite (present_absent _ _ H2).
  rewrite (read_holds _ _ _ H1). reflexivity.
Qed.

(** from the second stage on *)
Definition rest2 (r : runs) (n : nat) (d : fs) : trace :=
  match stage d (fresh_name First) Like false (fun t => nomem (r_like r n t)) with
  | Err e => ([], Err e)
  | Ok w2 => match stage (writes d w2) (fresh_name Like) Final true (r_perc r n) with
             | Err e => (w2, Err e)
             | Ok w3 => (w2 ++ w3, Ok tt)
             end
  end.
Lemma task_split r n d : redmapper_task r true n d =
  let w1 := stage0 d First false false (nomem (r_first r n)) in
  (w1 ++ fst (rest2 r n (writes d w1)), snd (rest2 r n (writes d w1))).
Proof.
  unfold redmapper_task, rest2. cbn [negb]. cbv zeta.
  destruct (stage _ _ Like _ _) as [w2|e]; [|cbn; rewrite app_nil_r; reflexivity].
  destruct (stage _ _ Final _ _) as [w3|e]; cbn; reflexivity.
Qed.
Lemma firstn_cons_phase r d w l k : phase r d -> (forall k, phase r (writes (write d w) (firstn k l))) -> phase r (writes d (firstn k (w :: l))).
Proof. intros H H2. destruct k as [|k]; [exact H|]. cbn [firstn]. apply H2. Qed.
Lemma firstn_none_phase r d k : phase r d -> phase r (writes d (firstn k [])).
Proof. rewrite firstn_nil. auto. Qed.

(** when the second stage starts with First_cat in place *)
Lemma rest2_prefix_BC r n d a k : phase r d -> holds d First_cat a -> phase r (writes d (firstn k (fst (rest2 r n d)))).
Proof.
  intros P Ha. destruct P as [H1 H2 H3 H4|a' H1 A1 H2 H3 H4|a' b H1 A1 H2 A2 H3 H4|a' b c H1 A1 H2 A2 H3 A3 H4|a' b c m i H1 A1 H2 A2 H3 A3 H4].
  - destruct (holds_absent _ _ _ Ha H1).
  - unfold rest2, stage at 1. change (fresh_name Like) with Like_cat. rewrite (present_absent _ _ H2).
    change (fresh_name First) with First_cat. rewrite (read_holds _ _ _ H1). cbn [bind].
    destruct (r_like r n a') as [b|] eqn:E; cbn [nomem option_map output].
    + change (writes d [(mkFN Like false false, b)]) with (write d (Like_cat, b)).
      destruct (step_B d a' b H1 H2 H3 H4) as (S1 & S2 & S3 & S4).
      rewrite (stage3_stage r n _ b S2 S3). cbn [fst app].
      apply firstn_cons_phase; [exact (PhB r d a' H1 A1 H2 H3 H4)|]. intros k'. apply (stage3_prefix r n _ a' b); try assumption. exists n; exact E.
    + cbn [writes fold_left]. unfold stage. change (fresh_name Final) with Final_cat. rewrite (present_absent _ _ H3).
      change (fresh_name Like) with Like_cat. rewrite (read_absent _ _ H2). cbn [bind fst]. apply firstn_none_phase. exact (PhB r d a' H1 A1 H2 H3 H4).
  - unfold rest2, stage at 1. change (fresh_name Like) with Like_cat. rewrite (present_holds _ _ _ H2). cbn [writes fold_left].
    rewrite (stage3_stage r n d b H2 H3). cbn [fst app]. apply (stage3_prefix r n d a' b); assumption.
  - unfold rest2, stage. change (fresh_name Like) with Like_cat. rewrite (present_holds _ _ _ H2). cbn [writes fold_left].
    change (fresh_name Final) with Final_cat. rewrite (present_holds _ _ _ H3). cbn [fst app]. apply firstn_none_phase. exact (PhD r d a' b c H1 A1 H2 A2 H3 A3 H4).
  - unfold rest2, stage. change (fresh_name Like) with Like_cat. rewrite (present_holds _ _ _ H2). cbn [writes fold_left].
    change (fresh_name Final) with Final_cat. rewrite (present_holds _ _ _ H3). cbn [fst app]. apply firstn_none_phase. exact (PhE r d a' b c m i H1 A1 H2 A2 H3 A3 H4).
Qed.
Lemma task_prefix r n d k : phase r d -> phase r (writes d (firstn k (fst (redmapper_task r true n d)))).
Proof.
  intros P. rewrite task_split. cbv zeta. cbn [fst].
  assert (Q : (exists a, holds d First_cat a) \/ (absent d First_cat /\ absent d Like_cat /\ absent d Final_cat /\ absent d Final_mem))
    by (destruct P; eauto 6).
  destruct Q as [[a Ha]|(H1 & H2 & H3 & H4)].
  { unfold stage0. change (fresh_name First) with First_cat. rewrite (present_holds _ _ _ Ha). cbn [app writes fold_left].
    apply (rest2_prefix_BC r n d a k P Ha). }
  unfold stage0. change (fresh_name First) with First_cat. rewrite (present_absent _ _ H1).
  destruct (r_first r n) as [a|] eqn:E; cbn [nomem option_map output app].
  - change (writes d [(mkFN First false false, a)]) with (write d (First_cat, a)).
    assert (A1 : first_ok r a) by (exists n; exact E).
    destruct (step_A r d a H1 H2 H3 H4 A1) as (S1 & S2 & S3 & S4).
    apply firstn_cons_phase; [constructor 1; assumption|]. intros k'. apply (rest2_prefix_BC r n _ a k'); [|exact S1].
    econstructor 2; eassumption.
  - cbn [writes fold_left]. unfold rest2, stage. change (fresh_name Like) with Like_cat. rewrite (present_absent _ _ H2).
    change (fresh_name First) with First_cat. rewrite (read_absent _ _ H1). cbn [bind fst]. apply firstn_none_phase. constructor 1; assumption.
Qed.
Lemma task_prefix_not r n d k : phase r d -> phase r (writes d (firstn k (fst (redmapper_task r false n d)))).
Proof. intros P. cbn. apply firstn_none_phase, P. Qed.
Lemma history_phase r p kills : forall n d, phase r d -> phase r (history (redmapper_task r p) n kills d).
Proof.
  induction kills as [|k t IH]; intros n d P; cbn [history]; [exact P|].
  apply IH. destruct p; [apply task_prefix, P|apply task_prefix_not, P].
Qed.

(** nothing that is there changes *)
Definition grows (d d' : fs) : Prop := forall n, exists l, d' n = d n ++ l.
Lemma writes_full d l : forall k, length l <= k -> writes d (firstn k l) = writes d l.
Proof. intros k H. rewrite firstn_all2 by exact H. reflexivity. Qed.

Lemma write_absent d w n : write d w n = [] -> d n = [].
Proof. unfold write. destruct (fname_eqb n (fst w)); [|auto]. intros H. apply app_eq_nil in H. tauto. Qed.
Lemma writes_absent l : forall d n, writes d l n = [] -> d n = [].
Proof. induction l as [|w l IH]; intros d n H; [exact H|]. cbn in H. apply IH in H. exact (write_absent _ _ _ H). Qed.
Lemma not_present d n : present d n = false -> d n = [].
Proof. unfold present. destruct (d n); [reflexivity|discriminate]. Qed.

Lemma phase_mem r d : phase r d -> absent d Final_cat -> absent d Final_mem.
Proof. intros P H. destruct P; try assumption. destruct (holds_absent d Final_cat c); assumption. Qed.

(** every file that a run writes was missing when it began *)
Lemma task_new r p n d : phase r d -> Forall (fun w => d (fst w) = []) (fst (redmapper_task r p n d)).
Proof.
  intros P. destruct p; [|constructor]. unfold redmapper_task. cbn [negb]. cbv zeta.
  set (w1 := stage0 d First false false (nomem (r_first r n))).
  assert (F1 : Forall (fun w => d (fst w) = []) w1).
  { unfold w1, stage0. destruct (present d (fresh_name First)) eqn:E; [constructor|]. apply not_present in E.
    destruct (r_first r n); cbn; [|constructor]. constructor; [exact E|constructor]. }
  unfold stage at 1. destruct (present (writes d w1) (fresh_name Like)) eqn:EL.
  - cbn [writes fold_left app]. fold (writes d w1).
    unfold stage. destruct (present (writes d w1) (fresh_name Final)) eqn:EF; [cbn; rewrite !app_nil_r; exact F1|].
    apply not_present in EF. apply writes_absent in EF. pose proof (phase_mem r d P EF) as EM.
    destruct (read _ _) as [t|e]; cbn; [|rewrite app_nil_r; exact F1].
    apply Forall_app. split; [exact F1|]. destruct (r_perc r n t) as [[c [m|]]|]; repeat constructor; assumption.
  - apply not_present in EL. apply writes_absent in EL.
    destruct (read _ _) as [t|e]; cbn [bind]; [|exact F1].
    set (w2 := output Like false false (nomem (r_like r n t))).
    assert (F2 : Forall (fun w => d (fst w) = []) w2).
    { unfold w2. destruct (r_like r n t); cbn; [|constructor]. constructor; [exact EL|constructor]. }
    unfold stage. destruct (present (writes (writes d w1) w2) (fresh_name Final)) eqn:EF.
    { cbn. rewrite app_nil_r. apply Forall_app; split; assumption. }
    apply not_present in EF. apply writes_absent in EF. apply writes_absent in EF. pose proof (phase_mem r d P EF) as EM.
    destruct (read _ _) as [t'|e]; cbn [bind fst]; [|apply Forall_app; split; assumption].
    apply Forall_app. split; [exact F1|]. apply Forall_app. split; [exact F2|].
    destruct (r_perc r n t') as [[c [m|]]|]; repeat constructor; assumption.
Qed.
Lemma writes_other l : forall d n, (forall w, In w l -> fst w <> n) -> writes d l n = d n.
Proof.
  induction l as [|w l IH]; intros d n H; [reflexivity|]. cbn. fold (writes (write d w) l). rewrite IH.
  - destruct w as [m t]. apply write_other. intros ->. apply (H (m, t)); [left; reflexivity|reflexivity].
  - intros w' Hw. apply H. right; exact Hw.
Qed.
Lemma firstn_In_l {A} k (l : list A) x : In x (firstn k l) -> In x l.
Proof. intros H. rewrite <- (firstn_skipn k l). apply in_or_app. left; exact H. Qed.
Lemma history_keeps r p kills : forall n d f t, phase r d -> holds d f t -> holds (history (redmapper_task r p) n kills d) f t.
Proof.
  induction kills as [|k l IH]; intros n d f t P H; cbn [history]; [exact H|].
  apply IH.
  - destruct p; [apply task_prefix, P|apply task_prefix_not, P].
  - unfold holds. rewrite writes_other; [exact H|]. intros w Hw E. apply firstn_In_l in Hw.
    pose proof (task_new r p n d P) as N. rewrite Forall_forall in N. specialize (N w Hw). rewrite E, H in N. discriminate.
Qed.

Lemma stage0_idle d k v s c : present d (fresh_name k) = true -> stage0 d k v s c = [].
Proof. unfold stage0. intros ->. reflexivity. Qed.

(** once the final catalog is there, nothing more is written *)
Lemma task_idle r n d c : phase r d -> holds d Final_cat c -> redmapper_task r true n d = ([], Ok tt).
Proof.
  intros P H. assert (Q : exists a b, holds d First_cat a /\ holds d Like_cat b).
  { destruct P; eauto; destruct (holds_absent _ _ _ H); assumption. }
  destruct Q as (a & b & Ha & Hb). rewrite task_split. unfold stage0. change (fresh_name First) with First_cat. rewrite (present_holds _ _ _ Ha).
  cbv zeta. cbn [writes fold_left app]. unfold rest2, stage. change (fresh_name Like) with Like_cat. rewrite (present_holds _ _ _ Hb). cbn [writes fold_left].
  change (fresh_name Final) with Final_cat. rewrite (present_holds _ _ _ H). reflexivity.
Qed.
(** a run whose stages all give catalogs completes the pixel *)
Lemma task_completes r n d : phase r d -> r_first r n <> None -> (forall t, r_like r n t <> None) -> (forall t, r_perc r n t <> None) ->
  snd (redmapper_task r true n d) = Ok tt /\ exists c, holds (writes d (fst (redmapper_task r true n d))) Final_cat c.
Proof.
  intros P N1 N2 N3.
  assert (B3 : forall d a b, holds d First_cat a -> holds d Like_cat b -> absent d Final_cat -> absent d Final_mem ->
     exists c, holds (writes d (stage3 r n b)) Final_cat c).
  { intros d0 a b H1 H2 H3 H4. unfold stage3. destruct (r_perc r n b) as [[c m]|] eqn:E; [|destruct (N3 b E)].
    exists c. destruct (step_C d0 a b c H1 H2 H3 H4) as (S1 & S2 & S3 & S4). destruct m as [m|]; [|exact S3].
    change (holds (write (write d0 (Final_cat, c)) (Final_mem, m)) Final_cat c). apply holds_other; [discriminate|exact S3]. }
  assert (BC : forall d a, phase r d -> holds d First_cat a -> snd (rest2 r n d) = Ok tt /\ exists c, holds (writes d (fst (rest2 r n d))) Final_cat c).
  { clear P d. intros d a P Ha.
    destruct P as [H1 H2 H3 H4|a' H1 A1 H2 H3 H4|a' b H1 A1 H2 A2 H3 H4|a' b c H1 A1 H2 A2 H3 A3 H4|a' b c m i H1 A1 H2 A2 H3 A3 H4].
    - destruct (holds_absent _ _ _ Ha H1).
    - unfold rest2, stage at 1 3. change (fresh_name Like) with Like_cat. rewrite (present_absent _ _ H2).
      change (fresh_name First) with First_cat. rewrite (read_holds _ _ _ H1). cbn [bind].
      destruct (r_like r n a') as [b|] eqn:E; [|destruct (N2 a' E)]. cbn [nomem option_map output].
      change (writes d [(mkFN Like false false, b)]) with (write d (Like_cat, b)).
      destruct (step_B d a' b H1 H2 H3 H4) as (S1 & S2 & S3 & S4). rewrite (stage3_stage r n _ b S2 S3). cbn [fst snd app].
      split; [reflexivity|]. exact (B3 (write d (Like_cat, b)) a' b S1 S2 S3 S4).
    - unfold rest2, stage at 1 3. change (fresh_name Like) with Like_cat. rewrite (present_holds _ _ _ H2). cbn [writes fold_left].
      rewrite (stage3_stage r n d b H2 H3). cbn [fst snd app]. split; [reflexivity|]. exact (B3 d a' b H1 H2 H3 H4).
    - unfold rest2, stage. change (fresh_name Like) with Like_cat. rewrite (present_holds _ _ _ H2). cbn [writes fold_left].
      change (fresh_name Final) with Final_cat. rewrite (present_holds _ _ _ H3). cbn. split; [reflexivity|]. exists c; exact H3.
    - unfold rest2, stage. change (fresh_name Like) with Like_cat. rewrite (present_holds _ _ _ H2). cbn [writes fold_left].
      change (fresh_name Final) with Final_cat. rewrite (present_holds _ _ _ H3). cbn. split; [reflexivity|]. exists c; exact H3. }
  rewrite task_split. cbv zeta. cbn [fst snd].
  assert (Q : (exists a, holds d First_cat a) \/ (absent d First_cat /\ absent d Like_cat /\ absent d Final_cat /\ absent d Final_mem))
    by (destruct P; eauto 6).
  destruct Q as [[a Ha]|(H1 & H2 & H3 & H4)].
  - unfold stage0. change (fresh_name First) with First_cat. rewrite (present_holds _ _ _ Ha). cbn [app writes fold_left]. exact (BC d a P Ha).
  - unfold stage0. change (fresh_name First) with First_cat. rewrite (present_absent _ _ H1).
    destruct (r_first r n) as [a|] eqn:E; [|congruence]. cbn [nomem option_map output app].
    change (writes d [(mkFN First false false, a)]) with (write d (First_cat, a)).
    assert (A1 : first_ok r a) by (exists n; exact E).
    destruct (step_A r d a H1 H2 H3 H4 A1) as (S1 & S2 & S3 & S4).
    assert (P2 : phase r (write d (First_cat, a))) by exact (PhB r _ a S1 A1 S2 S3 S4).
    destruct (BC _ a P2 S1) as [B1 B2]. split; [exact B1|exact B2].
Qed.
