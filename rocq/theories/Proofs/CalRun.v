From Coq Require Import QArith.
From Verif.Base Require Import Py PyLemmas.
From Verif.Model Require Import CalRun.
From Verif.Spec Require Import CalRun.
From Coq Require Import Lia List ZArith.
Import ListNotations.
Local Open Scope nat_scope.
Local Open Scope list_scope.

Definition rel := cfg -> cfg -> Prop.
Definition step_ok (R : rel) (s : step) (R' : rel) : Prop := forall c c', R c c' ->
  R' (st_post s (st_pre s c)) (st_post s (st_pre s c')) /\
  R' (st_post s (st_only s (st_pre s c))) (st_post s (st_pre s c')) /\
  R' (st_post s (st_only s (st_pre s c))) (st_post s (st_only s (st_pre s c'))) /\
  st_view s (st_only s (st_pre s c)) = st_view s (st_only s (st_pre s c')).
Definition marked (s : step) : Prop := In (st_mark s) (map w_file (st_writes s)).
Inductive chain : rel -> list step -> rel -> Prop :=
  | chain_nil R : chain R [] R
  | chain_cons R s R1 l R2 : step_ok R s R1 -> marked s -> chain R1 l R2 -> chain R (s :: l) R2.
Lemma chain_app R l R1 l' R2 : chain R l R1 -> chain R1 l' R2 -> chain R (l ++ l') R2.
Proof. induction 1; intros H2; cbn; [exact H2|]. econstructor; eauto. Qed.

Section Resume.
Variable gen : compute.
Lemma put_present d f v g : present d g = true -> present (put d f v) g = true.
Proof. unfold present, put. destruct (fname_eq_dec g f); auto. Qed.
Lemma put_self d f v : present (put d f v) f = true.
Proof. unfold present, put. destruct (fname_eq_dec f f); [reflexivity|congruence]. Qed.
Lemma write_present c d0 d w g : present d g = true -> present (put_write gen c d0 d w) g = true.
Proof. unfold put_write. intros H. destruct (_ && _); [exact H|apply put_present, H]. Qed.
Lemma write_self c d0 d w : present (put_write gen c d0 d w) (w_file w) = true.
Proof. unfold put_write. destruct (present d (w_file w)) eqn:E; cbn [andb]; [destruct (negb (w_clobber w)); [exact E|apply put_self]|apply put_self]. Qed.
Lemma writes_present c d0 ws : forall d g, present d g = true -> present (fold_left (put_write gen c d0) ws d) g = true.
Proof. induction ws as [|w ws IH]; intros d g H; cbn; [exact H|]. apply IH, write_present, H. Qed.
Lemma writes_in c d0 ws : forall d g, In g (map w_file ws) -> present (fold_left (put_write gen c d0) ws d) g = true.
Proof. induction ws as [|w ws IH]; intros d g; cbn; [intros []|]. intros [<-|H]; [apply writes_present, write_self|apply IH, H]. Qed.
Lemma step_present s cd g : present (snd cd) g = true -> present (snd (run_step gen s cd)) g = true.
Proof. intros H. unfold run_step. destruct (present (snd cd) (st_mark s)); cbn [snd]; [exact H|]. apply writes_present, H. Qed.
Lemma step_mark s cd : marked s -> present (snd (run_step gen s cd)) (st_mark s) = true.
Proof. intros H. unfold run_step. destruct (present (snd cd) (st_mark s)) eqn:E; cbn [snd]; [exact E|]. apply writes_in, H. Qed.
Lemma run_present l : forall cd g, present (snd cd) g = true -> present (snd (run_steps gen l cd)) g = true.
Proof. induction l as [|s l IH]; intros cd g H; [exact H|]. cbn. apply IH, step_present, H. Qed.

(** the same disk, related configurations: the same disks all the way *)
Lemma run_related R l R' : chain R l R' -> forall c c' d k, R c c' ->
  snd (run_steps gen (firstn k l) (c', d)) = snd (run_steps gen (firstn k l) (c, d)).
Proof.
  induction 1 as [|R s R1 l R2 Hs Hm Hl IH]; intros c c' d [|k] HR; cbn [firstn]; try reflexivity.
  cbn [run_steps fold_left]. destruct (Hs c c' HR) as (A & B & C & D). unfold run_step at 2 4. cbn [fst snd].
  destruct (present d (st_mark s)).
  - apply (IH _ _ d k A).
  - rewrite D. apply (IH _ _ _ k C).
Qed.
(** a second execution after the first [m] steps, stopped after [k] *)
Lemma resume R l R' : chain R l R' -> forall c c' d m k, R c c' ->
  snd (run_steps gen (firstn k l) (c', snd (run_steps gen (firstn m l) (c, d)))) = snd (run_steps gen (firstn (Nat.max k m) l) (c, d)).
Proof.
  induction 1 as [|R s R1 l R2 Hs Hm Hl IH]; intros c c' d m k HR.
  - rewrite !firstn_nil. reflexivity.
  - destruct m as [|m]; [rewrite Nat.max_0_r; cbn [firstn run_steps fold_left snd]; apply (run_related R (s :: l) R2); [econstructor; eauto|exact HR]|].
    destruct k as [|k]; [reflexivity|]. cbn [Nat.max firstn run_steps fold_left]. fold (run_steps gen).
    set (cd1 := run_step gen s (c, d)). set (dm := snd (fold_left (fun x s0 => run_step gen s0 x) (firstn m l) cd1)).
    assert (P : present dm (st_mark s) = true) by (apply (run_present (firstn m l)), step_mark, Hm).
    unfold run_step at 2. cbn [fst snd]. rewrite P. destruct (Hs c c' HR) as (A & B & _ & _).
    assert (HR1 : R1 (fst cd1) (st_post s (st_pre s c'))).
    { unfold cd1, run_step. cbn [fst snd]. destruct (present d (st_mark s)); [exact A|exact B]. }
    specialize (IH (fst cd1) (st_post s (st_pre s c')) (snd cd1) m k HR1). rewrite <- surjective_pairing in IH. exact IH.
Qed.
Lemma killed_between l m c0 d : killed gen l m 0 c0 d = snd (run_steps gen (firstn m l) (c0, d)).
Proof.
  unfold killed. destruct (run_steps gen (firstn m l) (c0, d)) as [c d1]. destruct (nth_error l m) as [s|]; [|reflexivity].
  cbn [firstn]. unfold put_writes. cbn. destruct (present d1 (st_mark s)); reflexivity.
Qed.
Lemma history_prefix R l R' c0 d ms : chain R l R' -> R c0 c0 ->
  forall m, exists k, history gen l ms c0 (snd (run_steps gen (firstn m l) (c0, d))) = snd (run_steps gen (firstn k l) (c0, d)).
Proof.
  intros HC HR. unfold history. induction ms as [|x ms IH]; intros m; cbn [fold_left]; [exists m; reflexivity|].
  rewrite killed_between, (resume R l R' HC c0 c0 d m x HR). apply IH.
Qed.
(** a file nothing else writes stays as it is *)
Lemma write_other c d0 d w g : w_file w <> g -> put_write gen c d0 d w g = d g.
Proof. intros H. unfold put_write. destruct (_ && _); [reflexivity|]. unfold put. destruct (fname_eq_dec g (w_file w)); [congruence|reflexivity]. Qed.
Lemma writes_other c d0 ws : forall d g, ~ In g (map w_file ws) -> fold_left (put_write gen c d0) ws d g = d g.
Proof. induction ws as [|w ws IH]; intros d g H; cbn; [reflexivity|]. cbn in H. rewrite IH by tauto. apply write_other. tauto. Qed.
Lemma run_untouched l g : forall cd, (forall s, In s l -> In g (map w_file (st_writes s)) -> present (snd cd) (st_mark s) = true) ->
  snd (run_steps gen l cd) g = snd cd g.
Proof.
  induction l as [|s l IH]; intros cd H; [reflexivity|]. cbn [run_steps fold_left]. fold (run_steps gen l (run_step gen s cd)).
  rewrite IH.
  - unfold run_step. destruct (present (snd cd) (st_mark s)) eqn:E; [reflexivity|]. cbn [snd]. apply writes_other.
    intros G. pose proof (H s (or_introl eq_refl) G). congruence.
  - intros t Ht G. apply step_present. apply H; [right; exact Ht|exact G].
Qed.
End Resume.

(** *** The chain of the calibration *)
Definition same : rel := fun c c' => c = c'.
Definition same_none : rel := fun c c' => c = c' /\ c_zl c = NoZl.
Definition but_zl_rel : rel := fun c c' => set_zl c NoZl = set_zl c' NoZl.
Definition but_cc : rel := fun c c' => set_center (set_cat c None) Random = set_center (set_cat c' None) Random /\ c_zl c = NoZl /\ c_zl c' = NoZl.
Ltac ok := let a := fresh in let b := fresh in let H := fresh in intros a b H; destruct a, b; unfold same, same_none, but_zl_rel, but_cc, keep, all, but_zl, set_base, set_center, set_saved, set_cat, set_zl, set_seed, set_zmem, set_wcen in *; cbn in *;
  repeat match goal with H : _ /\ _ |- _ => destruct H end;
  repeat match goal with H : mk_cfg _ _ _ _ _ _ _ _ = mk_cfg _ _ _ _ _ _ _ _ |- _ => injection H; clear H; intros end; subst; repeat split; reflexivity.
Ltac mk := unfold marked; cbn; tauto.
Ltac ch R := apply (chain_cons _ _ R); [ok|mk|].

Lemma first_chain : chain same_none first_steps same_none.
Proof. unfold first_steps. do 5 (ch same_none). constructor. Qed.
Lemma first_iteration : chain same_none (iteration 1) same.
Proof.
  unfold iteration. cbn [Nat.eqb app]. do 7 (ch same_none). do 2 (ch but_cc). ch same_none. do 4 (ch same). constructor.
Qed.
Lemma later_iteration i : chain same (iteration (S (S i))) same.
Proof.
  unfold iteration. cbn [Nat.eqb app]. do 5 (ch same). do 2 (ch but_zl_rel). do 3 (ch same). constructor.
Qed.
Lemma last_chain n : chain same (last_steps n) same.
Proof. unfold last_steps. do 4 (ch same). constructor. Qed.
Lemma later_chain k : forall i, chain same (flat_map iteration (seq (S (S i)) k)) same.
Proof. induction k as [|k IH]; intros i; cbn [seq flat_map]; [constructor|]. eapply chain_app; [apply later_iteration|apply IH]. Qed.
Lemma chain_weaken (R R0 : rel) l R' : (forall c c', R0 c c' -> R c c') -> chain R l R' -> l <> [] -> chain R0 l R'.
Proof. intros H C L. destruct C as [|R s R1 l R2 Hs Hm Hl]; [congruence|]. apply (chain_cons _ _ R1); auto. intros c c' HR. apply Hs, H, HR. Qed.
Lemma calibration_chain n : chain same_none (calibration n) same.
Proof.
  unfold calibration. eapply chain_app; [apply first_chain|]. destruct n as [|n].
  - cbn. apply (chain_weaken same); [intros c c' [H _]; exact H|apply last_chain|discriminate].
  - cbn [seq flat_map]. rewrite <- app_assoc. eapply chain_app; [apply first_iteration|]. eapply chain_app; [apply later_chain|apply last_chain].
Qed.

(** where a file is written *)
Lemma iteration_In i n s : In s (iteration i) -> 1 <= i <= n -> In s (calibration n).
Proof.
  intros H Hi. unfold calibration. apply in_or_app. right. apply in_or_app. left. apply in_flat_map. exists i. split; [apply in_seq; lia|exact H].
Qed.

Ltac each H := repeat (destruct H as [<-|H]; [|]); try (destruct H).
Ltac eachq H := repeat match type of H with _ \/ _ => destruct H as [H|H] | False => destruct H end.
(** every file of iteration [i] is written by a step of iteration [i] *)
Lemma iteration_writes i s g : In s (iteration i) -> In g (map w_file (st_writes s)) -> (exists k, g = It i k) \/ g = CutSeeds.
Proof.
  unfold iteration. rewrite !in_app_iff. intros H G. destruct H as [H|[H|[H|H]]].
  - cbn in H. each H; cbn in G; each G; eauto.
  - destruct (i =? 1); [|destruct H]. cbn in H. each H; cbn in G; each G; eauto.
  - cbn in H. each H; cbn in G; each G; eauto.
  - destruct (i =? 1); [|destruct H]. cbn in H. each H; cbn in G; each G; eauto.
Qed.
Lemma outer_writes n s g : In s (first_steps ++ last_steps n) -> In g (map w_file (st_writes s)) -> forall i k, g <> It i k.
Proof.
  intros H G i k E. subst g. apply in_app_iff in H. destruct H as [H|H]; cbn in H; each H; cbn in G; eachq G; discriminate.
Qed.
Lemma owner n s i k : In s (calibration n) -> In (It i k) (map w_file (st_writes s)) -> In s (iteration i).
Proof.
  intros H G. unfold calibration in H. rewrite !in_app_iff in H.
  assert (O : In s (first_steps ++ last_steps n) -> False) by (intros K; exact (outer_writes n s _ K G i k eq_refl)). rewrite in_app_iff in O.
  destruct H as [H|[H|H]]; [tauto| |tauto]. apply in_flat_map in H. destruct H as (j & _ & H).
  destruct (iteration_writes j s _ H G) as [[k0 E]|E]; [|discriminate]. injection E as <- _. exact H.
Qed.
Lemma owner_mark i s k m : (k = Pars /\ m = Pars) \/ (k = Final /\ m = Final) \/ (k = Members /\ m = Final) ->
  In s (iteration i) -> In (It i k) (map w_file (st_writes s)) -> st_mark s = It i m.
Proof.
  intros K H G. unfold iteration in H. rewrite !in_app_iff in H. destruct H as [H|[H|[H|H]]].
  - cbn in H. each H; cbn in G; eachq G; destruct K as [[-> ->]|[[-> ->]|[-> ->]]]; (discriminate || reflexivity).
  - destruct (i =? 1); [|destruct H]. cbn in H. each H; cbn in G; eachq G; destruct K as [[-> ->]|[[-> ->]|[-> ->]]]; (discriminate || reflexivity).
  - cbn in H. each H; cbn in G; eachq G; destruct K as [[-> ->]|[[-> ->]|[-> ->]]]; (discriminate || reflexivity).
  - destruct (i =? 1); [|destruct H]. cbn in H. each H; cbn in G; eachq G; destruct K as [[-> ->]|[[-> ->]|[-> ->]]]; (discriminate || reflexivity).
Qed.
(** the steps before the [a]-th step of iteration [i] *)
Definition before (i a : nat) : list step := first_steps ++ flat_map iteration (seq 1 (i - 1)) ++ firstn a (iteration i).
Lemma split_at n i a s : 1 <= i <= n -> nth_error (iteration i) a = Some s -> exists l2, calibration n = before i a ++ s :: l2.
Proof.
  intros Hi Ha. apply nth_error_split in Ha. destruct Ha as (x & y & E & L). unfold calibration, before.
  replace (seq 1 n) with (seq 1 (i - 1) ++ i :: seq (S i) (n - i)).
  2:{ replace (seq 1 n) with (seq 1 ((i - 1) + S (n - i))) by (f_equal; lia). rewrite seq_app. cbn [seq]. replace (1 + (i - 1)) with i by lia. reflexivity. }
  rewrite flat_map_app. cbn [flat_map]. rewrite E. replace (firstn a (x ++ s :: y)) with x.
  2:{ rewrite <- L, firstn_app, Nat.sub_diag, firstn_all. cbn. rewrite app_nil_r. reflexivity. }
  exists (y ++ flat_map iteration (seq (S i) (n - i)) ++ last_steps n). rewrite <- !app_assoc. cbn [app]. reflexivity.
Qed.
Lemma before_writes i a s k : In s (before i a) -> In (It i k) (map w_file (st_writes s)) -> In s (firstn a (iteration i)).
Proof.
  intros H G. unfold before in H. rewrite !in_app_iff in H. destruct H as [H|[H|H]]; [| |exact H].
  - exfalso. assert (K : In s (first_steps ++ last_steps 0)) by (apply in_or_app; auto); exact (outer_writes 0 s _ K G i k eq_refl).
  - apply in_flat_map in H. destruct H as (j & Hj & H). apply in_seq in Hj. destruct (iteration_writes j s _ H G) as [[k0 E]|E]; [|discriminate]. injection E as E _. lia.
Qed.
Lemma run_app gen l l' cd : run_steps gen (l ++ l') cd = run_steps gen l' (run_steps gen l cd).
Proof. unfold run_steps. apply fold_left_app. Qed.
Lemma killed_at gen l1 s l2 j c0 d c1 d1 : run_steps gen l1 (c0, d) = (c1, d1) -> present d1 (st_mark s) = false ->
  killed gen (l1 ++ s :: l2) (length l1) j c0 d = put_writes gen (st_view s (st_only s (st_pre s c1))) d1 (firstn j (st_writes s)).
Proof.
  intros E P. unfold killed. rewrite firstn_app, Nat.sub_diag, firstn_all. cbn [firstn]. rewrite app_nil_r, E.
  rewrite nth_error_app2 by lia. rewrite Nat.sub_diag. cbn [nth_error]. rewrite P. reflexivity.
Qed.
Lemma before_absent gen i a k c0 : (forall s, In s (firstn a (iteration i)) -> ~ In (It i k) (map w_file (st_writes s))) ->
  snd (run_steps gen (before i a) (c0, no_files)) (It i k) = None.
Proof.
  intros H. rewrite run_untouched; [reflexivity|]. intros s Hs G. exfalso. exact (H s (before_writes i a s k Hs G) G).
Qed.
Lemma present_none d f : d f = None -> present d f = false.
Proof. unfold present. intros ->. reflexivity. Qed.
Lemma present_some d f v : d f = Some v -> present d f = true.
Proof. unfold present. intros ->. reflexivity. Qed.

(** *** What each step is computed with, when nothing is there at the beginning *)
Definition do_cfg (c : cfg) (s : step) : cfg := st_post s (st_only s (st_pre s c)).
Definition wr (s : step) : list fname := map w_file (st_writes s).
Definition apart (s t : step) : Prop := forall g, In g (wr s) -> ~ In g (wr t).
Lemma fop_app {A} (R : A -> A -> Prop) l l' : ForallOrdPairs R l -> ForallOrdPairs R l' -> (forall s t, In s l -> In t l' -> R s t) -> ForallOrdPairs R (l ++ l').
Proof.
  induction 1 as [|a l H1 H2 IH]; intros H3 H; cbn; [exact H3|]. constructor; [|apply IH; auto; intros s t Hs Ht; apply H; [right|]; assumption].
  apply Forall_app. split; [exact H1|]. apply Forall_forall. intros t Ht. apply H; [left; reflexivity|exact Ht].
Qed.
Definition rank (n : nat) (f : fname) : nat := match f with It i _ => i | ItB _ _ | FullSeeds => S n | CutSeeds => 1 | _ => 0 end.
Lemma iteration_rank n i s g : In s (iteration i) -> In g (wr s) -> rank n g = i.
Proof.
  unfold iteration, wr. rewrite !in_app_iff. intros H G. destruct H as [H|[H|[H|H]]].
  - cbn in H. each H; cbn in G; each G; reflexivity.
  - destruct (Nat.eqb_spec i 1); [|destruct H]. cbn in H. each H; cbn in G; each G; reflexivity.
  - cbn in H. each H; cbn in G; each G; reflexivity.
  - destruct (Nat.eqb_spec i 1) as [->|]; [|destruct H]. cbn in H. each H; cbn in G; each G; reflexivity.
Qed.
Lemma first_rank n s g : In s first_steps -> In g (wr s) -> rank n g = 0.
Proof. unfold wr. intros H G. cbn in H. each H; cbn in G; each G; reflexivity. Qed.
Lemma last_rank n s g : In s (last_steps n) -> In g (wr s) -> rank n g = S n.
Proof. unfold wr. intros H G. cbn in H. each H; cbn in G; each G; reflexivity. Qed.
Ltac fop := repeat (constructor; [repeat (constructor; [let g := fresh in let A := fresh in let B := fresh in intros g A B; unfold wr in A, B; cbn in A, B; eachq A; subst g; eachq B; discriminate|]); constructor|]); constructor.
Lemma first_apart : ForallOrdPairs apart first_steps.
Proof. unfold first_steps. fop. Qed.
Lemma iteration_apart i : ForallOrdPairs apart (iteration i).
Proof. unfold iteration. destruct (i =? 1); cbn [app]; fop. Qed.
Lemma last_apart n : ForallOrdPairs apart (last_steps n).
Proof. unfold last_steps. fop. Qed.
Lemma iterations_apart (n : nat) k : forall j, ForallOrdPairs apart (flat_map iteration (seq j k)).
Proof.
  induction k as [|k IH]; intros j; cbn [seq flat_map]; [constructor|]. apply fop_app; [apply iteration_apart|apply IH|].
  intros s t Hs Ht g A B. apply in_flat_map in Ht. destruct Ht as (i & Hi & Ht). apply in_seq in Hi.
  pose proof (iteration_rank n _ _ _ Hs A). pose proof (iteration_rank n _ _ _ Ht B). lia.
Qed.
Lemma calibration_apart n : ForallOrdPairs apart (calibration n).
Proof.
  unfold calibration. apply fop_app; [apply first_apart| |].
  - apply fop_app; [apply (iterations_apart n)|apply last_apart|]. intros s t Hs Ht g A B. apply in_flat_map in Hs. destruct Hs as (i & Hi & Hs). apply in_seq in Hi.
    pose proof (iteration_rank n _ _ _ Hs A). pose proof (last_rank n _ _ Ht B). lia.
  - intros s t Hs Ht g A B. pose proof (first_rank n _ _ Hs A). apply in_app_or in Ht. destruct Ht as [Ht|Ht].
    + apply in_flat_map in Ht. destruct Ht as (i & Hi & Ht). apply in_seq in Hi. pose proof (iteration_rank n _ _ _ Ht B). lia.
    + pose proof (last_rank n _ _ Ht B). lia.
Qed.
Lemma calibration_marked n s : In s (calibration n) -> marked s.
Proof.
  unfold calibration. rewrite !in_app_iff, in_flat_map. intros [H|[(i & _ & H)|H]].
  - cbn in H. each H; mk.
  - unfold iteration in H. rewrite !in_app_iff in H. destruct H as [H|[H|[H|H]]].
    + cbn in H. each H; mk.
    + destruct (i =? 1); [|destruct H]. cbn in H. each H; mk.
    + cbn in H. each H; mk.
    + destruct (i =? 1); [|destruct H]. cbn in H. each H; mk.
  - cbn in H. each H; mk.
Qed.
Lemma run_fresh gen l : forall c (d : disk), ForallOrdPairs apart l -> (forall s, In s l -> marked s) -> (forall s g, In s l -> In g (wr s) -> d g = None) ->
  fst (run_steps gen l (c, d)) = fold_left do_cfg l c.
Proof.
  induction l as [|s l IH]; intros c d A M D; [reflexivity|]. inversion A as [|? ? A1 A2]; subst. cbn [run_steps fold_left].
  unfold run_step at 2. cbn [fst snd]. rewrite (present_none d (st_mark s)) by (apply (D s); [left; reflexivity|apply M; left; reflexivity]).
  apply IH; [exact A2|intros t Ht; apply M; right; exact Ht|]. intros t g Ht G. unfold put_writes. rewrite writes_other; [apply (D t); [right; exact Ht|exact G]|].
  intros B. rewrite Forall_forall in A1. exact (A1 t Ht g B G).
Qed.
Lemma writes_val gen c d0 ws g : forall d, (d g = None \/ exists p, d g = Some (gen g p c d0)) -> (In g (map w_file ws) \/ d g <> None) ->
  exists p, fold_left (put_write gen c d0) ws d g = Some (gen g p c d0).
Proof.
  induction ws as [|w ws IH]; intros d H1 H2; cbn [fold_left].
  - destruct H2 as [[]|H2]. destruct H1 as [H1|H1]; [congruence|exact H1].
  - apply IH.
    + unfold put_write. destruct (_ && _); [exact H1|]. unfold put. destruct (fname_eq_dec g (w_file w)) as [->|]; [right; eauto|exact H1].
    + cbn in H2. unfold put_write, present. destruct (fname_eq_dec g (w_file w)) as [->|ne].
      * right. destruct (d (w_file w)) eqn:E; cbn [andb]; [destruct (negb _)|]; [congruence| |]; unfold put; destruct (fname_eq_dec _ _); congruence.
      * destruct H2 as [[H2|H2]|H2]; [congruence|left; exact H2|right]. destruct (_ && _); [exact H2|]. unfold put. destruct (fname_eq_dec g (w_file w)); [congruence|exact H2].
Qed.
Lemma fop_split {A} (R : A -> A -> Prop) l1 s l2 : ForallOrdPairs R (l1 ++ s :: l2) -> (forall t, In t l1 -> R t s) /\ (forall t, In t l2 -> R s t) /\ ForallOrdPairs R l1 /\ (forall t u, In t l1 -> In u l2 -> R t u).
Proof.
  induction l1 as [|a l1 IH]; cbn; intros H; inversion H as [|? ? H1 H2]; subst.
  - rewrite Forall_forall in H1. split; [intros ? []|]. split; [exact H1|]. split; [constructor|]. intros t u [].
  - destruct (IH H2) as (B1 & B2 & B3 & B4). rewrite Forall_forall in H1. split; [|split; [exact B2|split]].
    + intros t [<-|Ht]; [apply H1, in_or_app; right; left; reflexivity|auto].
    + constructor; [apply Forall_forall; intros t Ht; apply H1, in_or_app; left; exact Ht|exact B3].
    + intros t u [<-|Ht] Hu; [apply H1, in_or_app; right; right; exact Hu|auto].
Qed.
Lemma step_value gen n l1 s l2 c0 f : calibration n = l1 ++ s :: l2 -> In f (wr s) ->
  let view := st_view s (st_only s (st_pre s (fold_left do_cfg l1 c0))) in
  exists phase before, finished gen (calibration n) c0 no_files f = Some (gen f phase view before) /\
    (forall g v, before g = Some v -> finished gen (calibration n) c0 no_files g = Some v) /\
    (forall g, (exists t, In t l1 /\ In g (wr t)) -> before g <> None).
Proof.
  intros E F. cbv zeta. pose proof (calibration_apart n) as A. rewrite E in A. destruct (fop_split _ _ _ _ A) as (A1 & A2 & A3 & A4).
  assert (M : forall t, In t (l1 ++ s :: l2) -> marked t) by (intros t Ht; apply (calibration_marked n); rewrite E; exact Ht).
  pose proof (run_fresh gen l1 c0 no_files A3 (fun t Ht => M t (in_or_app _ _ _ (or_introl Ht))) (fun _ _ _ _ => eq_refl)) as C.
  destruct (run_steps gen l1 (c0, no_files)) as [c1 d1] eqn:ER. cbn [fst] in C. subst c1.
  assert (D : forall g, (forall t, In t l1 -> ~ In g (wr t)) -> d1 g = None).
  { intros g Hg. pose proof (run_untouched gen l1 g (c0, no_files)) as U. rewrite ER in U. cbn [snd] in U. rewrite U; [reflexivity|]. intros t Ht G. exfalso. exact (Hg t Ht G). }
  assert (P : present d1 (st_mark s) = false) by (apply present_none, D; intros t Ht G; apply (A1 t Ht _ G), M, in_or_app; right; left; reflexivity).
  assert (S1 : snd (run_step gen s (fold_left do_cfg l1 c0, d1)) = put_writes gen (st_view s (st_only s (st_pre s (fold_left do_cfg l1 c0)))) d1 (st_writes s)) by (unfold run_step; cbn [fst snd]; rewrite P; reflexivity).
  assert (Fin : forall g, (forall t, In t l2 -> ~ In g (wr t)) -> finished gen (calibration n) c0 no_files g = put_writes gen (st_view s (st_only s (st_pre s (fold_left do_cfg l1 c0)))) d1 (st_writes s) g).
  { intros g Hg. unfold finished. rewrite E, run_app, ER. change (run_steps gen (s :: l2) ?y) with (run_steps gen l2 (run_step gen s y)).
    rewrite run_untouched; [rewrite S1; reflexivity|]. intros t Ht G. exfalso. exact (Hg t Ht G). }
  destruct (writes_val gen (st_view s (st_only s (st_pre s (fold_left do_cfg l1 c0)))) d1 (st_writes s) f d1) as (p & Hp).
  { left. apply D. intros t Ht G. exact (A1 t Ht f G F). } { left. exact F. }
  exists p, d1. split; [|split].
  - rewrite Fin; [exact Hp|]. intros t Ht. exact (A2 t Ht f F).
  - intros g v Hg. assert (W : exists t, In t l1 /\ In g (wr t)).
    { destruct (in_dec fname_eq_dec g (flat_map wr l1)) as [i|ni]; [apply in_flat_map in i; exact i|]. rewrite (D g) in Hg; [discriminate|].
      intros t Ht G. apply ni. apply in_flat_map. eauto. }
    destruct W as (t & Ht & G). rewrite Fin; [|intros u Hu; exact (A4 t u Ht Hu g G)]. unfold put_writes. rewrite writes_other; [exact Hg|]. exact (A1 t Ht g G).
  - intros g (t & Ht & G). apply in_split in Ht. destruct Ht as (x & y & ->). rewrite run_app in ER. change (run_steps gen (t :: y) ?z) with (run_steps gen y (run_step gen t z)) in ER.
    assert (Q : present d1 g = true); [|intros N; rewrite (present_none _ _ N) in Q; discriminate].
    replace d1 with (snd (run_steps gen y (run_step gen t (run_steps gen x (c0, no_files))))) by (rewrite ER; reflexivity).
    apply run_present. destruct (run_steps gen x (c0, no_files)) as [cx dx] eqn:Ex. unfold run_step. cbn [fst snd].
    assert (X : present dx (st_mark t) = false).
    { apply present_none. pose proof (run_untouched gen x (st_mark t) (c0, no_files)) as U. rewrite Ex in U. cbn [snd] in U. rewrite U; [reflexivity|]. intros u Hu GG. exfalso.
      destruct (fop_split _ _ _ _ A3) as (B1 & _). apply (B1 u Hu _ GG). apply M. apply in_or_app. left. apply in_or_app. right. left. reflexivity. }
    rewrite X. cbn [snd]. apply writes_in. exact G.
Qed.
(** the configuration at the beginning of iteration [S i] *)
Definition cfg_at (zl : zlfile) (i : nat) : cfg :=
  match i with
  | 0 => mk_cfg None Configured Configured None zl (Some SeedTrain) (Some ColorMem) None
  | S _ => mk_cfg None Configured Configured (Some (It i Final)) (ZlOf (It i Zlambda)) (Some CutSeeds) (Some (It i Zmem)) (Some (It i Wcen))
  end.
Lemma cfg_iterations zl k : fold_left do_cfg (first_steps ++ flat_map iteration (seq 1 k)) (start_cfg zl) = cfg_at zl k.
Proof.
  induction k as [|k IH]; [reflexivity|]. rewrite seq_S, flat_map_app, app_assoc, fold_left_app, IH. cbn [flat_map Nat.add]. rewrite app_nil_r.
  destruct k as [|k]; reflexivity.
Qed.
Lemma cfg_before zl i a : fold_left do_cfg (before (S i) a) (start_cfg zl) = fold_left do_cfg (firstn a (iteration (S i))) (cfg_at zl i).
Proof. unfold before. replace (S i - 1) with i by lia. rewrite app_assoc, fold_left_app, cfg_iterations. reflexivity. Qed.
Definition pos (i : nat) (k : kind) : nat :=
  match k with
  | Pars | CalZreds => 0 | Zreds => 1 | BkgChi => 2 | BkgZred => 3 | SeedZreds | Seeds => 4 | Final | Members | Like => 5
  | SubLike => 6 | RandFinal | RandMembers => 7 | RandsatFinal | RandsatMembers => 8
  | Wcen => if i =? 1 then 9 else 6 | Zlambda => if i =? 1 then 10 else 7 | Plot => if i =? 1 then 11 else 8 | Zmem => if i =? 1 then 12 else 9
  end.
Lemma pos_step i k : 1 <= i -> (In k [SubLike; RandFinal; RandMembers; RandsatFinal; RandsatMembers] -> i = 1) ->
  exists s, nth_error (iteration i) (pos i k) = Some s /\ In (It i k) (wr s).
Proof.
  intros Hi Hk. destruct i as [|[|i]]; [lia| |];
  destruct k; try (exfalso; discriminate Hk; cbn; tauto); eexists; (split; [reflexivity|cbn; tauto]).
Qed.
Lemma view_ok zl i k s : nth_error (iteration (S i)) (pos (S i) k) = Some s -> (In k [SubLike; RandFinal; RandMembers; RandsatFinal; RandsatMembers] -> S i = 1) ->
  uses (It (S i) k) (st_view s (st_only s (st_pre s (fold_left do_cfg (firstn (pos (S i) k) (iteration (S i))) (cfg_at zl i))))).
Proof.
  intros E Hk. destruct i as [|i]; destruct k; try (exfalso; discriminate Hk; cbn; tauto); injection E as <-; cbn; repeat split; rewrite ?Nat.sub_0_r; reflexivity.
Qed.
Lemma in_before i a g : In g (flat_map wr first_steps) \/ (exists j, 1 <= j < i /\ In g (flat_map wr (iteration j))) \/ In g (flat_map wr (firstn a (iteration i))) ->
  exists t, In t (before i a) /\ In g (wr t).
Proof.
  unfold before. intros [H|[(j & Hj & H)|H]]; apply in_flat_map in H; destruct H as (t & Ht & G); exists t; (split; [|exact G]); rewrite !in_app_iff.
  - auto.
  - right. left. apply in_flat_map. exists j. split; [apply in_seq; lia|exact Ht].
  - auto.
Qed.
Lemma cfg_inputs zl i k s g : nth_error (iteration (S i)) (pos (S i) k) = Some s -> (In k [SubLike; RandFinal; RandMembers; RandsatFinal; RandsatMembers] -> S i = 1) ->
  In (Some g) (inputs (st_view s (st_only s (st_pre s (fold_left do_cfg (firstn (pos (S i) k) (iteration (S i))) (cfg_at zl i)))))) ->
  g = It (S i) k \/ exists t, In t (before (S i) (pos (S i) k)) /\ In g (wr t).
Proof.
  intros E Hk H. destruct i as [|i].
  - destruct k; injection E as <-; cbn in H; eachq H; try discriminate H; injection H as <-; auto; right; apply in_before; cbn; tauto.
  - destruct k; try (exfalso; discriminate Hk; cbn; tauto); injection E as <-; cbn in H; eachq H; try discriminate H; injection H as <-; auto; right; apply in_before;
    first [right; left; exists (S i); split; [lia|destruct i; cbn; tauto] | right; right; cbn; tauto | right; left; exists 1; split; [lia|cbn; tauto]].
Qed.
Lemma split_last n a s : nth_error (last_steps n) a = Some s -> exists l2, calibration n = ((first_steps ++ flat_map iteration (seq 1 n)) ++ firstn a (last_steps n)) ++ s :: l2.
Proof.
  intros Ha. apply nth_error_split in Ha. destruct Ha as (x & y & E & L). exists y. unfold calibration. rewrite E.
  replace (firstn a (x ++ s :: y)) with x by (rewrite <- L, firstn_app, Nat.sub_diag, firstn_all; cbn; rewrite app_nil_r; reflexivity).
  rewrite <- !app_assoc. reflexivity.
Qed.
Definition pos_last (k : kind) : nat := match k with SeedZreds | Seeds => 1 | Final | Members => 2 | _ => 3 end.
