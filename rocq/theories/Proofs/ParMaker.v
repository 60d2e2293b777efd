From Coq Require Import Permutation.
From Verif.Base Require Import Py PyLemmas Fn.
From Verif.Model Require Import ParMaker.
From Verif.Spec Require Import ParMaker.

Section P.
Variable queue : nat -> list (nat * list Z).

Definition file_ok (f : option (list Z)) (p : nat) (h : list (nat * (nat * list Z))) : Prop :=
  match f with
  | None => filter (fun w => Nat.eqb (fst w) p) (map snd h) = []
  | Some l => l = rows_for p (map snd h)
  end.
Definition holds (s : st) (i p : nat) : Prop :=
  (pcs s i = Locked \/ (exists x, pcs s i = Looked x) \/ pcs s i = Written) /\
  exists rows rest, todo s i = (p, rows) :: rest.

Record Inv (s : st) : Prop := {
  I_files : forall p, file_ok (files s p) p (hist s);
  I_lock : forall i p, holds s i p -> locks s p = Some i;
  I_seen : forall i p rows rest x, pcs s i = Looked x -> todo s i = (p, rows) :: rest -> files s p = x;
  I_prog : forall i, exists d, queue i = d ++ todo s i /\
     (pcs s i = Written -> exists w rest, todo s i = w :: rest /\ writes_of i (hist s) = d ++ [w]) /\
     (pcs s i <> Written -> pcs s i <> Dead -> writes_of i (hist s) = d) /\
     (pcs s i = Dead -> writes_of i (hist s) = d \/ exists w rest, todo s i = w :: rest /\ writes_of i (hist s) = d ++ [w])
}.

Lemma inv_init : Inv (init queue).
Proof.
  constructor; cbn.
  - intros; reflexivity.
  - intros i p [[H|[(x & H)|H]] _]; discriminate.
  - discriminate.
  - intros i. exists []. cbn. repeat split; auto; discriminate.
Qed.

Lemma writes_of_app i h1 h2 : writes_of i (h1 ++ h2) = writes_of i h1 ++ writes_of i h2.
Proof. unfold writes_of. rewrite filter_app, map_app. reflexivity. Qed.
Lemma rows_for_app p h1 h2 : rows_for p (h1 ++ h2) = rows_for p h1 ++ rows_for p h2.
Proof. unfold rows_for. rewrite filter_app, map_app, concat_app. reflexivity. Qed.

Lemma dead_inv s i : Inv s -> Inv (set_pc s i Dead).
Proof.
  intros [F L S P]. constructor; cbn [files hist locks pcs todo set_pc].
  - exact F.
  - intros j p (H & H'). destruct (Nat.eq_dec j i) as [->|n]; cbn in *.
    + rewrite upd_same in H. destruct H as [H|[(x & H)|H]]; discriminate.
    + rewrite upd_other in H by exact n. apply L. split; assumption.
  - intros j p rows rest x. destruct (Nat.eq_dec j i) as [->|n].
    + rewrite upd_same; discriminate.
    + rewrite upd_other by exact n. apply S.
  - intros j. destruct (P j) as (d & H1 & H2 & H3 & H4). exists d. split; [exact H1|].
    destruct (Nat.eq_dec j i) as [->|n].
    + rewrite upd_same. repeat split; try discriminate; try congruence.
      intros _. destruct (pcs s i) eqn:E.
      * left. apply H3; congruence.
      * left. apply H3; congruence.
      * left. apply H3; congruence.
      * right. auto.
      * auto.
    + rewrite upd_other by exact n. auto.
Qed.

Lemma exec_inv s l : Inv s -> Inv (exec s l).
Proof.
  intros HI. destruct l as [i|i|i]; cbn [exec].
  - destruct (todo s i) as [|(p, rows) rest] eqn:Et; [exact HI|].
    destruct (pcs s i) eqn:Ep; [| | | |exact HI].
    + (* Want *) destruct (locks s p) eqn:El; [exact HI|]. destruct HI as [F L S P].
      constructor; cbn [files hist locks pcs todo].
      * exact F.
      * intros j q (H & rw & rs & Hq). cbn in H, Hq. destruct (Nat.eq_dec j i) as [->|n].
        -- rewrite Et in Hq. injection Hq as <- _ _. apply upd_same.
        -- rewrite upd_other in H by exact n.
           assert (Hl : locks s q = Some j) by (apply L; split; [exact H|eauto]).
           rewrite upd_other; [exact Hl|]. intros ->. congruence.
      * intros j q rw rs x. destruct (Nat.eq_dec j i) as [->|n]; [rewrite upd_same; discriminate|].
        rewrite upd_other by exact n. apply S.
      * intros j. destruct (P j) as (d & H1 & H2 & H3 & H4). exists d. split; [exact H1|].
        destruct (Nat.eq_dec j i) as [->|n].
        -- rewrite upd_same. repeat split; try discriminate. intros _ _. apply H3; congruence.
        -- rewrite upd_other by exact n. auto.
    + (* Locked *) destruct HI as [F L S P]. constructor; cbn [files hist locks pcs todo set_pc].
      * exact F.
      * intros j q (H & Hq). cbn in H, Hq. destruct (Nat.eq_dec j i) as [->|n].
        -- apply L. split; [left; exact Ep|exact Hq].
        -- rewrite upd_other in H by exact n. apply L. split; assumption.
      * intros j q rw rs x. destruct (Nat.eq_dec j i) as [->|n].
        -- rewrite upd_same, Et. intros [= <-] [= <- _ _]. reflexivity.
        -- rewrite upd_other by exact n. apply S.
      * intros j. destruct (P j) as (d & H1 & H2 & H3 & H4). exists d. split; [exact H1|].
        destruct (Nat.eq_dec j i) as [->|n].
        -- rewrite upd_same. repeat split; try discriminate. intros _ _. apply H3; congruence.
        -- rewrite upd_other by exact n. auto.
    + (* Looked *) destruct HI as [F L S P].
      assert (Hl : locks s p = Some i) by (apply L; split; eauto).
      assert (Hs : files s p = seen) by (eapply S; eauto).
      constructor; cbn [files hist locks pcs todo].
      * intros q. unfold file_ok. rewrite map_app. cbn [map snd]. destruct (Nat.eq_dec q p) as [->|n].
        -- rewrite upd_same. rewrite rows_for_app. specialize (F p). unfold file_ok in F. rewrite Hs in F.
           assert (Hone : rows_for p [(p, rows)] = rows)
             by (unfold rows_for; cbn; rewrite Nat.eqb_refl; cbn; apply app_nil_r).
           rewrite Hone. destruct seen as [old|].
           ++ rewrite <- F. reflexivity.
           ++ unfold rows_for. rewrite F. reflexivity.
        -- rewrite upd_other by exact n. specialize (F q). unfold file_ok in F.
           assert (Hb : Nat.eqb p q = false) by (apply Nat.eqb_neq; congruence).
           destruct (files s q).
           ++ rewrite rows_for_app. unfold rows_for at 2. cbn. rewrite Hb. cbn. rewrite app_nil_r. exact F.
           ++ rewrite filter_app. cbn. rewrite Hb, app_nil_r. exact F.
      * intros j q (H & Hq). cbn in H, Hq. destruct (Nat.eq_dec j i) as [->|n].
        -- apply L. split; [right; left; eauto|exact Hq].
        -- rewrite upd_other in H by exact n. apply L. split; assumption.
      * intros j q rw rs x. destruct (Nat.eq_dec j i) as [->|n]; [rewrite upd_same; discriminate|].
        rewrite upd_other by exact n. intros H1 H2.
        assert (Hj : locks s q = Some j) by (apply L; split; eauto).
        rewrite upd_other; [eapply S; eauto|]. intros ->. congruence.
      * intros j. destruct (P j) as (d & H1 & H2 & H3 & H4). exists d. split; [exact H1|].
        rewrite writes_of_app. destruct (Nat.eq_dec j i) as [->|n].
        -- rewrite upd_same. repeat split; try discriminate; try congruence. intros _.
           exists (p, rows), rest. split; [exact Et|]. rewrite H3 by congruence.
           unfold writes_of. cbn. rewrite Nat.eqb_refl. reflexivity.
        -- rewrite upd_other by exact n.
           assert (Hw : writes_of j [(i, (p, rows))] = [])
             by (unfold writes_of; cbn; destruct (Nat.eqb_spec i j); [congruence|reflexivity]).
           rewrite Hw, app_nil_r. auto.
    + (* Written *) destruct HI as [F L S P].
      assert (Hl : locks s p = Some i) by (apply L; split; eauto).
      constructor; cbn [files hist locks pcs todo].
      * exact F.
      * intros j q (H & rw & rs & Hq). cbn in H, Hq. destruct (Nat.eq_dec j i) as [->|n].
        -- rewrite upd_same in H. destruct H as [H|[(x & H)|H]]; discriminate.
        -- rewrite upd_other in H by exact n. rewrite upd_other in Hq by exact n.
           assert (Hj : locks s q = Some j) by (apply L; split; eauto).
           rewrite upd_other; [exact Hj|]. intros ->. congruence.
      * intros j q rw rs x. destruct (Nat.eq_dec j i) as [->|n]; [rewrite upd_same; discriminate|].
        rewrite !upd_other by exact n. apply S.
      * intros j. destruct (P j) as (d & H1 & H2 & H3 & H4).
        destruct (Nat.eq_dec j i) as [->|n].
        -- rewrite !upd_same. exists (d ++ [(p, rows)]). split; [rewrite <- app_assoc; cbn; congruence|].
           repeat split; try discriminate. intros _ _. destruct (H2 Ep) as (w & r & Hw & Hd).
           rewrite Et in Hw. injection Hw as <- <-. exact Hd.
        -- exists d. rewrite !upd_other by exact n. auto.
  - destruct (todo s i) as [|(p, rows) rest]; [exact HI|]. destruct (pcs s i); try exact HI.
    destruct (locks s p); [apply dead_inv|]; exact HI.
  - apply dead_inv, HI.
Qed.

Lemma run_inv ls : Inv (run queue ls).
Proof.
  unfold run. generalize inv_init. generalize (init queue).
  induction ls as [|l ls IH]; cbn; intros s H; [exact H|]. apply IH, exec_inv, H.
Qed.

Lemma run_contents ls p :
  match files (run queue ls) p with None => [] | Some l => l end = rows_for p (map snd (hist (run queue ls))).
Proof.
  pose proof (I_files _ (run_inv ls) p) as H. unfold file_ok in H. destruct (files (run queue ls) p); [exact H|].
  unfold rows_for. rewrite H. reflexivity.
Qed.

Lemma run_prefix ls i : exists rest, queue i = writes_of i (hist (run queue ls)) ++ rest.
Proof.
  destruct (I_prog _ (run_inv ls) i) as (d & H1 & H2 & H3 & H4). rewrite H1.
  destruct (pcs (run queue ls) i) eqn:E.
  1,2,3: exists (todo (run queue ls) i); rewrite H3 by congruence; reflexivity.
  - destruct (H2 eq_refl) as (w & r & Hw & ->). rewrite Hw. exists r. rewrite <- app_assoc. reflexivity.
  - destruct (H4 eq_refl) as [->|(w & r & Hw & ->)]; [eexists; reflexivity|].
    rewrite Hw. exists r. rewrite <- app_assoc. reflexivity.
Qed.

Lemma run_finished ls i : pcs (run queue ls) i = Want -> todo (run queue ls) i = [] ->
  writes_of i (hist (run queue ls)) = queue i.
Proof.
  intros H E. destruct (I_prog _ (run_inv ls) i) as (d & H1 & _ & H3 & _).
  rewrite E, app_nil_r in H1. rewrite H1. apply H3; congruence.
Qed.

(** every process index in the history is one that has a queue *)
Lemma hist_split n h :
  (forall w, In w h -> fst w < n) ->
  Permutation (map snd h) (List.concat (map (fun i => writes_of i h) (seq 0 n))).
Proof.
  induction h as [|(i, w) h IH]; intros H.
  - cbn. unfold writes_of; cbn. induction (seq 0 n); cbn; auto.
  - cbn [map snd]. assert (Hi : i < n) by (apply (H (i, w)); left; reflexivity).
    specialize (IH (fun x Hx => H x (or_intror Hx))).
    assert (Hs : seq 0 n = seq 0 i ++ i :: seq (S i) (n - S i)).
    { replace n with (i + S (n - S i)) at 1 by lia. rewrite seq_app. reflexivity. }
    rewrite Hs, map_app, concat_app in IH |- *. cbn [map List.concat] in IH |- *.
    assert (Ho : forall L, ~ In i L -> map (fun j => writes_of j ((i, w) :: h)) L = map (fun j => writes_of j h) L).
    { intros L HL. apply map_ext_in. intros j Hj. unfold writes_of. cbn.
      destruct (Nat.eqb_spec i j) as [->|]; [contradiction|reflexivity]. }
    rewrite !Ho by (rewrite in_seq; lia).
    assert (Hw : writes_of i ((i, w) :: h) = w :: writes_of i h) by (unfold writes_of; cbn; rewrite Nat.eqb_refl; reflexivity).
    rewrite Hw. cbn. apply Permutation_cons_app. exact IH.
Qed.

Lemma rows_for_perm p a b : Permutation a b -> Permutation (rows_for p a) (rows_for p b).
Proof.
  intros H. unfold rows_for. induction H; cbn.
  - constructor.
  - destruct (fst x =? p); cbn; [apply Permutation_app_head|]; assumption.
  - destruct (fst x =? p), (fst y =? p); cbn; try reflexivity.
    rewrite !app_assoc. apply Permutation_app_tail, Permutation_app_comm.
  - etransitivity; eassumption.
Qed.

Lemma hist_procs ls n : (forall i, n <= i -> queue i = []) ->
  forall w, In w (hist (run queue ls)) -> fst w < n.
Proof.
  intros Hq (i, x) Hin. cbn. destruct (Nat.lt_ge_cases i n) as [|Hge]; [assumption|]. exfalso.
  destruct (run_prefix ls i) as (r & Hr). rewrite Hq in Hr by exact Hge. symmetry in Hr.
  apply app_eq_nil in Hr. destruct Hr as [Hr _].
  assert (Hx : In x (writes_of i (hist (run queue ls)))).
  { unfold writes_of. apply in_map_iff. exists (i, x). split; [reflexivity|]. apply filter_In. split; [exact Hin|].
    cbn. apply Nat.eqb_refl. }
  rewrite Hr in Hx. exact Hx.
Qed.

Lemma all_finished ls n p :
  (forall i, n <= i -> queue i = []) ->
  (forall i, i < n -> pcs (run queue ls) i = Want /\ todo (run queue ls) i = []) ->
  Permutation (match files (run queue ls) p with None => [] | Some l => l end)
              (rows_for p (List.concat (map queue (seq 0 n)))).
Proof.
  intros Hq Hd. rewrite run_contents. apply rows_for_perm.
  rewrite (hist_split n _ (hist_procs ls n Hq)).
  assert (E : map (fun i => writes_of i (hist (run queue ls))) (seq 0 n) = map queue (seq 0 n)).
  { apply map_ext_in. intros i Hi. apply in_seq in Hi. destruct (Hd i) as [? ?]; [lia|]. apply run_finished; assumption. }
  rewrite E. reflexivity.
Qed.
End P.
