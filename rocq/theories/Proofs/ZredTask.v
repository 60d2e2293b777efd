From Verif.Base Require Import Py PyLemmas Fn.
From Verif.Model Require Import ZredTask.
From Verif.Spec Require Import ZredTask.

Section Z.
Variable c : cfg.
Hypothesis Hown : covered c.

(** files still to be written, the current one first *)
Definition todo_of (k : pc) : list nat :=
  match k with Writing l => l | InFile q l => q :: l | _ => [] end.
Definition writing (k : pc) : Prop := match k with Writing _ | InFile _ _ => True | _ => False end.
Definition past (k : pc) : Prop :=
  match k with WantG _ | GlobF | GlobL _ | Make | RelG | Done _ => True | _ => False end.

(** what the owner's program counter says about file p *)
Definition file_inv (k : pc) (locked : bool) (p : nat) (f : fstate) : Prop :=
  match k with
  | Start => f = Absent
  | Writing l => if in_dec Nat.eq_dec p l then f = Absent else f = Complete
  | InFile q l => if Nat.eq_dec p q then f = Partial else
                  if in_dec Nat.eq_dec p l then f = Absent else f = Complete
  | Dead => locked = false -> f = Absent \/ f = Complete
  | _ => f = Complete
  end.

Record Inv (s : st) : Prop := {
  I_lock : forall t, writing (pcs s t) -> plock s t = true;
  I_lock2 : forall t, plock s t = true -> pcs s t = Dead \/ writing (pcs s t);
  I_todo : forall t, NoDup (todo_of (pcs s t)) /\ forall p, In p (todo_of (pcs s t)) -> own c p = t /\ p < nfile c;
  I_file : forall p, p < nfile c -> file_inv (pcs s (own c p)) (plock s (own c p)) p (fls s p);
  I_glob : forall t, pcs s t = GlobL (nfile c) -> forall p, p < nfile c -> fls s p <> Absent;
  I_make : forall t, pcs s t = Make -> forall p, p < nfile c -> fls s p = Complete;
  I_master : forall fs, master s = Some fs -> all_complete c fs /\ forall p, p < nfile c -> fls s p = Complete
}.

Lemma inv_init : Inv init.
Proof.
  constructor; cbn; try discriminate; try contradiction.
  - intros t. split; [constructor|contradiction].
  - reflexivity.
Qed.

(** A step of task t. *)
Lemma gen_inv s t k f' pl g m :
  Inv s ->
  (forall u, u <> t -> pl u = plock s u) ->
  (writing k -> pl t = true) -> (pl t = true -> k = Dead \/ writing k) ->
  (NoDup (todo_of k) /\ forall p, In p (todo_of k) -> own c p = t /\ p < nfile c) ->
  (forall p, p < nfile c -> own c p = t -> file_inv k (pl t) p (f' p)) ->
  (forall p, p < nfile c -> own c p <> t -> f' p = fls s p) ->
  (forall p, p < nfile c -> fls s p <> Absent -> f' p <> Absent) ->
  (forall p, p < nfile c -> fls s p = Complete -> f' p = Complete) ->
  (k = GlobL (nfile c) -> forall p, p < nfile c -> f' p <> Absent) ->
  (k = Make -> forall p, p < nfile c -> f' p = Complete) ->
  (m = master s \/ forall fs, m = Some fs -> all_complete c fs /\ forall p, p < nfile c -> f' p = Complete) ->
  Inv (mkS (upd (pcs s) t k) f' pl g m).
Proof.
  intros [L1 L2 TD F G M MS] Hpl Hw Hw2 Ht Hf Hf2 Ha Hc Hg Hm HM. constructor; cbn [pcs fls plock glock master].
  - intros u. destruct (Nat.eq_dec u t) as [->|n]; [rewrite upd_same; exact Hw|].
    rewrite upd_other, Hpl by exact n; apply L1.
  - intros u. destruct (Nat.eq_dec u t) as [->|n]; [rewrite upd_same; exact Hw2|rewrite upd_other, Hpl by exact n; apply L2].
  - intros u. destruct (Nat.eq_dec u t) as [->|n]; [rewrite upd_same; exact Ht|rewrite upd_other by exact n; apply TD].
  - intros p Hp. destruct (Nat.eq_dec (own c p) t) as [e|n].
    + rewrite e, !upd_same. apply Hf; auto.
    + rewrite !upd_other by exact n. rewrite Hpl by exact n. rewrite Hf2 by auto. apply F, Hp.
  - intros u Hu p Hp. destruct (Nat.eq_dec u t) as [->|n].
    + rewrite upd_same in Hu. auto.
    + rewrite upd_other in Hu by exact n. apply Ha; [exact Hp|]. eapply G; eauto.
  - intros u Hu p Hp. destruct (Nat.eq_dec u t) as [->|n].
    + rewrite upd_same in Hu. auto.
    + rewrite upd_other in Hu by exact n. apply Hc; [exact Hp|]. eapply M; eauto.
  - destruct HM as [->|HM]; [|exact HM].
    intros fs Hfs. destruct (MS fs Hfs) as [H1 H2]. split; [exact H1|]. intros p Hp. apply Hc; auto.
Qed.

Lemma forallb_seq f n : forallb f (seq 0 n) = true <-> forall p, p < n -> f p = true.
Proof. rewrite forallb_forall. split; intros H p Hp; apply H; [apply in_seq; lia|apply in_seq in Hp; lia]. Qed.

Lemma filter_length_le {A} (f : A -> bool) l : List.length (filter f l) <= List.length l.
Proof. induction l as [|a l IH]; cbn; [lia|]. destruct (f a); cbn; lia. Qed.
Lemma filter_full (f : nat -> bool) n :
  List.length (filter f (seq 0 n)) = n -> forall p, p < n -> f p = true.
Proof.
  intros H p Hp.
  assert (Hg : forall l, List.length (filter f l) = List.length l -> forall q, In q l -> f q = true).
  { induction l as [|a l IH]; cbn; [contradiction|]. intros E q [<-|Hq].
    - destruct (f a); [reflexivity|]. pose proof (filter_length_le f l). lia.
    - apply IH; [|exact Hq]. destruct (f a); cbn in E; [lia|]. pose proof (filter_length_le f l). lia. }
  apply (Hg (seq 0 n)); [rewrite seq_length; exact H|apply in_seq; lia].
Qed.
Lemma filter_all (f : nat -> bool) n : (forall p, p < n -> f p = true) -> List.length (filter f (seq 0 n)) = n.
Proof.
  intros H. assert (E : filter f (seq 0 n) = seq 0 n).
  { assert (Hg : forall l, (forall q, In q l -> f q = true) -> filter f l = l).
    { induction l as [|a l IH]; cbn; [reflexivity|]. intros Hl. rewrite Hl by auto. f_equal. apply IH; auto. }
    apply Hg. intros q Hq. apply in_seq in Hq. apply H. lia. }
  rewrite E. apply seq_length.
Qed.

Lemma not_locked_file s p : Inv s -> p < nfile c -> plock s (own c p) = false -> fls s p = Absent \/ fls s p = Complete.
Proof.
  intros HI Hp Hl. pose proof (I_file _ HI p Hp) as H. pose proof (I_lock _ HI (own c p)) as HL.
  destruct (pcs s (own c p)); cbn in H, HL; auto; exfalso; rewrite HL in Hl; auto; discriminate.
Qed.

Ltac nolist := solve [cbn; split; [constructor|contradiction]].

Lemma past_file s t p : Inv s -> past (pcs s t) -> p < nfile c -> own c p = t -> fls s p = Complete.
Proof.
  intros HI Hk Hp Ho. pose proof (I_file _ HI p Hp) as HF. rewrite Ho in HF.
  destruct (pcs s t); cbn in Hk; try contradiction; exact HF.
Qed.
Lemma past_unlocked s t : Inv s -> past (pcs s t) -> plock s t = false.
Proof.
  intros HI Hk. destruct (plock s t) eqn:E; [|reflexivity]. exfalso.
  destruct (I_lock2 _ HI t E) as [H|H]; [rewrite H in Hk|destruct (pcs s t)]; cbn in *; contradiction.
Qed.

(** from one past state to another, nothing else changes *)
Lemma past_inv s t k g m :
  Inv s -> past (pcs s t) -> past k ->
  (k = GlobL (nfile c) -> forall p, p < nfile c -> fls s p <> Absent) ->
  (k = Make -> forall p, p < nfile c -> fls s p = Complete) ->
  (m = master s \/ forall fs, m = Some fs -> all_complete c fs /\ forall p, p < nfile c -> fls s p = Complete) ->
  Inv (mkS (upd (pcs s) t k) (fls s) (plock s) g m).
Proof.
  intros HI Hp Hk Hg Hm HM. pose proof (past_unlocked s t HI Hp) as Hl.
  apply gen_inv; auto.
  - intros Hw. destruct k; cbn in *; contradiction.
  - congruence.
  - destruct k; cbn in Hk; try contradiction; nolist.
  - intros p Hpn Ho. pose proof (past_file s t p HI Hp Hpn Ho) as HF.
    destruct k; cbn in Hk; try contradiction; exact HF.
Qed.

Lemma dead_inv s t : Inv s -> Inv (set_pc s t Dead).
Proof.
  intros HI. apply gen_inv; auto; try discriminate; try contradiction; try nolist.
  intros p Hp Ho Hl. apply not_locked_file; auto. congruence.
Qed.

Lemma adv_inv s t : Inv s -> Inv (adv c s t).
Proof.
  intros HI. unfold adv. destruct (pcs s t) eqn:E.
  - (* Start *) destruct (plock s t) eqn:El; [apply dead_inv, HI|].
    apply gen_inv; auto; try discriminate.
    + intros u n. apply upd_other, n.
    + intros _. apply upd_same.
    + intros _. right. cbn. trivial.
    + cbn. split; [apply NoDup_filter, seq_NoDup|]. intros p Hp. apply filter_In in Hp.
      rewrite in_seq, Nat.eqb_eq in Hp. lia.
    + intros p Hp Ho. cbn. pose proof (I_file _ HI p Hp) as HF. rewrite Ho, E in HF. cbn in HF.
      destruct (in_dec Nat.eq_dec p _) as [|n]; [exact HF|]. exfalso. apply n. apply filter_In.
      rewrite in_seq, Nat.eqb_eq. lia.
  - assert (Hl : plock s t = true) by (apply (I_lock _ HI); rewrite E; cbn; trivial).
    destruct (I_todo _ HI t) as [Hnd Hmine]. rewrite E in Hnd, Hmine. cbn [todo_of] in Hnd, Hmine.
    destruct todo as [|p rest].
    + (* unlink *) apply gen_inv; auto; try discriminate; try contradiction; try nolist.
      * intros u n. apply upd_other, n.
      * rewrite upd_same; discriminate.
      * intros p Hp Ho. pose proof (I_file _ HI p Hp) as HF. rewrite Ho, E in HF. exact HF.
    + (* begin a file *)
      destruct (Hmine p (or_introl eq_refl)) as [Hop Hpn].
      pose proof (I_file _ HI p Hpn) as Hpf. rewrite Hop, E in Hpf. cbn [file_inv] in Hpf.
      destruct (in_dec Nat.eq_dec p (p :: rest)) as [_|n]; [|exfalso; apply n; left; reflexivity].
      apply gen_inv; auto; try discriminate.
      * intros _. right. cbn. trivial.
      * intros q Hq Ho. cbn [file_inv]. pose proof (I_file _ HI q Hq) as HF. rewrite Ho, E in HF. cbn [file_inv] in HF.
        inversion Hnd as [|? ? Hni Hnd']; subst.
        destruct (Nat.eq_dec q p) as [->|n]; [apply upd_same|]. rewrite upd_other by exact n.
        destruct (in_dec Nat.eq_dec q rest) as [i|ni]; destruct (in_dec Nat.eq_dec q (p :: rest)) as [i'|ni']; auto.
        -- exfalso; apply ni'; right; exact i.
        -- exfalso. destruct i'; congruence.
      * intros q Hq Ho. apply upd_other. congruence.
      * intros q Hq Ha. destruct (Nat.eq_dec q p) as [->|n]; [contradiction|]. rewrite upd_other by exact n. exact Ha.
      * intros q Hq Ha. destruct (Nat.eq_dec q p) as [->|n]; [congruence|]. rewrite upd_other by exact n. exact Ha.
  - (* end a file *)
    assert (Hl : plock s t = true) by (apply (I_lock _ HI); rewrite E; cbn; trivial).
    destruct (I_todo _ HI t) as [Hnd Hmine]. rewrite E in Hnd, Hmine. cbn [todo_of] in Hnd, Hmine.
    inversion Hnd as [|? ? Hni Hnd']; subst.
    destruct (Hmine p (or_introl eq_refl)) as [Hop Hpn].
    apply gen_inv; auto; try discriminate.
    + intros _. right. cbn. trivial.
    + cbn. split; [exact Hnd'|]. intros q Hq. apply Hmine. right; exact Hq.
    + intros q Hq Ho. cbn [file_inv]. pose proof (I_file _ HI q Hq) as HF. rewrite Ho, E in HF. cbn [file_inv] in HF.
      destruct (Nat.eq_dec q p) as [->|n].
      * rewrite upd_same. destruct (in_dec Nat.eq_dec p todo); [contradiction|reflexivity].
      * rewrite upd_other by exact n. exact HF.
    + intros q Hq Ho. apply upd_other. congruence.
    + intros q Hq Ha. upd_case; [discriminate|exact Ha].
    + intros q Hq Ha. upd_case; auto.
  - (* WantG *) destruct (glock s).
    + destruct (S tries <? maxtry c); apply past_inv; auto; try discriminate; try (rewrite E; cbn; trivial); cbn; trivial.
    + apply past_inv; auto; try discriminate; try (rewrite E; cbn; trivial); cbn; trivial.
  - (* GlobF *) apply past_inv; auto; try discriminate; try (rewrite E; cbn; trivial); try (cbn; trivial).
    intros [= Hn] p Hp Ha. pose proof (filter_full _ _ Hn p Hp) as H. cbn in H. rewrite Ha in H. discriminate.
  - (* GlobL *) destruct (_ && _) eqn:Et.
    + apply andb_true_iff in Et. destruct Et as [Hn Hlk]. apply Nat.eqb_eq in Hn. subst nfiles.
      rewrite forallb_seq in Hlk.
      apply past_inv; auto; try discriminate; try (rewrite E; cbn; trivial); try (cbn; trivial).
      intros _ p Hp. specialize (Hlk (own c p) (Hown p Hp)). apply negb_true_iff in Hlk.
      destruct (not_locked_file s p HI Hp Hlk); [|assumption].
      exfalso. exact (I_glob _ HI t E p Hp H).
    + apply past_inv; auto; try discriminate; try (rewrite E; cbn; trivial); try (cbn; trivial).
  - (* Make *) destruct (forallb _ _).
    + apply past_inv; auto; try discriminate; try (rewrite E; cbn; trivial); try (cbn; trivial).
      right. intros fs [= <-]. pose proof (I_make _ HI t E) as HC. split; [|exact HC].
      split; [rewrite map_length, seq_length; reflexivity|]. intros f Hf. apply in_map_iff in Hf.
      destruct Hf as (p & <- & Hp). apply in_seq in Hp. apply HC. lia.
    + apply dead_inv, HI.
  - (* RelG *) apply past_inv; auto; try discriminate; try (rewrite E; cbn; trivial); try (cbn; trivial).
  - exact HI.
  - exact HI.
Qed.

Lemma exec_inv s l : Inv s -> Inv (exec c s l).
Proof.
  intros H. destruct l as [t|t]; cbn [exec]; [destruct (t <? ntask c); [apply adv_inv|]; exact H|apply dead_inv, H].
Qed.
Lemma run_inv ls : Inv (run c ls).
Proof.
  unfold run, run_from. generalize inv_init. generalize init.
  induction ls as [|l ls IH]; cbn; intros s H; [exact H|]. apply IH, exec_inv, H.
Qed.

Lemma safety ls fs : master (run c ls) = Some fs ->
  all_complete c fs /\ (forall p, p < nfile c -> fls (run c ls) p = Complete) /\
  (forall t p l, pcs (run c ls) t <> InFile p l).
Proof.
  intros H. destruct (I_master _ (run_inv ls) fs H) as [H1 H2]. split; [exact H1|]. split; [exact H2|].
  intros t p l E. destruct (I_todo _ (run_inv ls) t) as [_ Hm]. rewrite E in Hm.
  destruct (Hm p (or_introl eq_refl)) as [Ho Hp].
  pose proof (I_file _ (run_inv ls) p Hp) as HF. rewrite Ho, E in HF. cbn in HF.
  destruct (Nat.eq_dec p p); [|congruence]. rewrite H2 in HF by exact Hp. discriminate.
Qed.

(** ** liveness *)
Definition live (k : pc) : Prop :=
  match k with WantG _ | GlobF | Make => True | GlobL n => n = nfile c | _ => False end.
Definition Live (s : st) : Prop :=
  (forall t, t < ntask c -> past (pcs s t)) ->
  (exists t, t < ntask c /\ live (pcs s t)) \/ master s <> None \/ exists t, t < ntask c /\ pcs s t = Done false.

Lemma master_mono s l : master s <> None -> master (exec c s l) <> None.
Proof.
  intros H. destruct l as [t|t]; cbn [exec]; [|exact H]. destruct (t <? ntask c); [|exact H].
  unfold adv. destruct (pcs s t); cbn; auto.
  - destruct (plock s t); auto.
  - destruct todo; auto.
  - destruct (glock s); auto.
  - destruct (_ && _); auto.
  - destruct (forallb _ _); cbn; auto. discriminate.
Qed.

Lemma adv_other s t u : u <> t -> pcs (adv c s t) u = pcs s u.
Proof.
  intros n. unfold adv. destruct (pcs s t); cbn; try reflexivity.
  - destruct (plock s t); cbn; apply upd_other, n.
  - destruct todo; cbn; apply upd_other, n.
  - apply upd_other, n.
  - destruct (glock s); cbn; apply upd_other, n.
  - apply upd_other, n.
  - destruct (_ && _); cbn; apply upd_other, n.
  - destruct (forallb _ _); cbn; apply upd_other, n.
  - apply upd_other, n.
Qed.

Lemma adv_live s t : Inv s -> t < ntask c -> Live s -> Live (adv c s t).
Proof.
  intros HI Ht HL Hall.
  assert (Hoth : forall u, u < ntask c -> u <> t -> past (pcs s u)).
  { intros u Hu n. specialize (Hall u Hu). rewrite adv_other in Hall by exact n. exact Hall. }
  destruct (pcs s t) eqn:E.
  - specialize (Hall t Ht); unfold adv in Hall; rewrite E in Hall. destruct (plock s t); cbn in Hall; rewrite upd_same in Hall; contradiction.
  - (* Writing *) destruct todo.
    + left. exists t. split; [exact Ht|]. unfold adv. rewrite E. cbn. rewrite upd_same. cbn. trivial.
    + exfalso. specialize (Hall t Ht). unfold adv in Hall. rewrite E in Hall. cbn in Hall. rewrite upd_same in Hall. contradiction.
  - specialize (Hall t Ht); unfold adv in Hall; rewrite E in Hall. cbn in Hall; rewrite upd_same in Hall; contradiction.
  - (* WantG *) unfold adv. rewrite E. destruct (glock s).
    + destruct (S tries <? maxtry c); cbn.
      * left. exists t. split; [exact Ht|]. cbn. rewrite upd_same. cbn. trivial.
      * right. right. exists t. split; [exact Ht|]. cbn. rewrite upd_same. reflexivity.
    + left. exists t. split; [exact Ht|]. cbn. rewrite upd_same. cbn. trivial.
  - (* GlobF *) left. exists t. split; [exact Ht|]. unfold adv. rewrite E. cbn. rewrite upd_same. cbn.
    apply filter_all. intros p Hp.
    assert (Hpast : past (pcs s (own c p))).
    { destruct (Nat.eq_dec (own c p) t) as [->|n]; [rewrite E; cbn; trivial|]. apply Hoth; [apply Hown, Hp|exact n]. }
    rewrite (past_file s _ p HI Hpast Hp eq_refl). reflexivity.
  - (* GlobL *)
    assert (HP : forall u, u < ntask c -> past (pcs s u)).
    { intros u Hu. destruct (Nat.eq_dec u t) as [->|n]; [rewrite E; cbn; trivial|auto]. }
    destruct (HL HP) as [(u & Hu & Hlu)|[Hm|(u & Hu & Hd)]].
    + destruct (Nat.eq_dec u t) as [->|n].
      * rewrite E in Hlu. cbn in Hlu. left. exists t. split; [exact Ht|]. unfold adv. rewrite E.
        rewrite Hlu, Nat.eqb_refl. cbn [andb].
        assert (Hf : forallb (fun u => negb (plock s u)) (seq 0 (ntask c)) = true).
        { apply forallb_seq. intros v Hv. rewrite (past_unlocked s v HI (HP v Hv)). reflexivity. }
        rewrite Hf. cbn. rewrite upd_same. cbn. trivial.
      * left. exists u. split; [exact Hu|]. rewrite adv_other by exact n. exact Hlu.
    + right. left. pose proof (master_mono s (Adv t) Hm) as H. cbn [exec] in H.
      destruct (Nat.ltb_spec t (ntask c)); [exact H|lia].
    + right. right. exists u. split; [exact Hu|]. rewrite adv_other; [exact Hd|]. intros ->. congruence.
  - (* Make *) right. left. unfold adv. rewrite E. pose proof (I_make _ HI t E) as HC.
    assert (Hf : forallb (fun p => is_file (fls s p)) (seq 0 (nfile c)) = true).
    { apply forallb_seq. intros p Hp. rewrite HC by exact Hp. reflexivity. }
    rewrite Hf. cbn. discriminate.
  - (* RelG *)
    assert (HP : forall u, u < ntask c -> past (pcs s u)).
    { intros u Hu. destruct (Nat.eq_dec u t) as [->|n]; [rewrite E; cbn; trivial|auto]. }
    destruct (HL HP) as [(u & Hu & Hlu)|[Hm|(u & Hu & Hd)]].
    + left. exists u. split; [exact Hu|]. rewrite adv_other; [exact Hlu|]. intros ->. rewrite E in Hlu. exact Hlu.
    + right. left. unfold adv. rewrite E. exact Hm.
    + right. right. exists u. split; [exact Hu|]. rewrite adv_other; [exact Hd|]. intros ->. congruence.
  - (* Done *) assert (Hs : adv c s t = s) by (unfold adv; rewrite E; reflexivity). rewrite Hs. apply HL.
    intros u Hu. destruct (Nat.eq_dec u t) as [->|n]; [rewrite E; cbn; trivial|auto].
  - specialize (Hall t Ht); unfold adv in Hall; rewrite E in Hall. rewrite E in Hall. contradiction.
Qed.

Lemma crash_live s t : Live s -> Live (set_pc s t Dead).
Proof.
  intros HL Hall. cbn in *.
  destruct (Nat.lt_ge_cases t (ntask c)) as [Ht|Ht].
  - specialize (Hall t Ht). rewrite upd_same in Hall. contradiction.
  - assert (HP : forall u, u < ntask c -> past (pcs s u)).
    { intros u Hu. specialize (Hall u Hu). rewrite upd_other in Hall by lia. exact Hall. }
    destruct (HL HP) as [(u & Hu & Hlu)|[Hm|(u & Hu & Hd)]].
    + left. exists u. split; [exact Hu|]. rewrite upd_other by lia. exact Hlu.
    + right. left. exact Hm.
    + right. right. exists u. split; [exact Hu|]. rewrite upd_other by lia. exact Hd.
Qed.

Lemma run_live ls : 0 < ntask c -> Live (run c ls).
Proof.
  intros HT. unfold run, run_from.
  assert (H0 : Live init) by (intros H; exfalso; apply (H 0 HT)).
  generalize inv_init H0. generalize init. induction ls as [|l ls IH]; cbn; intros s HI HL; [exact HL|].
  apply IH; [apply exec_inv, HI|]. destruct l as [t|t]; cbn [exec].
  - destruct (Nat.ltb_spec t (ntask c)); [apply adv_live; auto|exact HL].
  - apply crash_live, HL.
Qed.

Lemma liveness ls : 0 < ntask c ->
  (forall t, t < ntask c -> pcs (run c ls) t = Done true) -> master (run c ls) <> None.
Proof.
  intros HT Hd. destruct (run_live ls HT) as [(u & Hu & Hlu)|[Hm|(u & Hu & Hf)]].
  - intros t Ht. rewrite Hd by exact Ht. cbn. trivial.
  - rewrite Hd in Hlu by exact Hu. contradiction.
  - exact Hm.
  - rewrite Hd in Hf by exact Hu. discriminate.
Qed.
End Z.

(** *** locks are given back *)
Definition LockInv (s : st) : Prop :=
  (forall t, plock s t = true -> in_pixel (pcs s t)) /\ (forall t, glock s = Some t -> in_global (pcs s t)).
Lemma lockinv_exec c s l : LockInv s -> LockInv (exec c s l).
Proof.
  intros [P G]. destruct l as [t|t]; cbn [exec].
  - destruct (Nat.ltb t (ntask c)); [|split; assumption]. unfold adv.
    assert (HP := P t). assert (HG := G t).
    destruct (pcs s t) as [|[|p rest]|p rest|n| |n| | |b|] eqn:E; try (split; assumption);
      repeat match goal with |- context [if ?b then _ else _] => destruct b eqn:? end;
      try (destruct (glock s) as [g|] eqn:Eg);
      unfold set_pc; split; cbn; intros u Hu; unfold upd in *;
      (destruct (Nat.eqb_spec u t) as [eq|ne]; [subst u|]); cbn in *; auto; try congruence;
      try (apply HP in Hu; exact Hu); try (injection Hu as <-; congruence);
      try (exfalso; apply HP; exact Hu); try (exfalso; apply HG; congruence); try (apply P; assumption);
      try (apply G; congruence).
    all: try (exfalso; injection Hu as ->; apply HG; reflexivity).
    all: destruct (Nat.ltb (S n) (maxtry c)); cbn; auto.
  - unfold set_pc. split; cbn; intros u Hu; unfold upd; (destruct (Nat.eqb_spec u t) as [eq|ne]; [subst u|]); cbn in *; auto.
Qed.
Lemma lockinv_run c ls : LockInv (run c ls).
Proof.
  unfold run, run_from. assert (H : LockInv init) by (split; cbn; discriminate).
  revert H. generalize init. induction ls as [|l ls IH]; intros s H; cbn; [exact H|]. apply IH, lockinv_exec, H.
Qed.
