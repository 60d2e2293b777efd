From Coq Require Import Lqa QArith Setoid Morphisms.
From Verif.Base Require Import Py PyLemmas Fn.
From Verif.Model Require Import Runner.
From Verif.Spec Require Import Runner.
From Verif.Model Require Galfile.
From Verif.Proofs Require Galfile.
Local Open Scope nat_scope.

(** * percolation *)
Definition clm (e : nat * nbr_out) (g : nat) : Q :=
  if Nat.eqb (fst e) g && (no_mask (snd e) && Qlt_bool 0 (no_p (snd e))) then no_p (snd e) else 0%Q.

Lemma clm_nonneg e g : (0 <= clm e g)%Q.
Proof.
  unfold clm. destruct (Nat.eqb _ _); cbn [andb]; [|lra]. destruct (no_mask _); cbn [andb]; [|lra].
  destruct (Qlt_bool 0 (no_p (snd e))) eqn:E; [|lra]. apply Qlt_bool_iff in E. lra.
Qed.

Lemma claim_nonneg c o g : (0 <= claim c o g)%Q.
Proof. unfold claim. apply Qsum_nonneg. intros x H. apply in_map_iff in H as (e & <- & _). apply (clm_nonneg e g). Qed.

Lemma taken_nonneg h g : (0 <= taken h g)%Q.
Proof. unfold taken. apply Qsum_nonneg. intros x H. apply in_map_iff in H as (e & <- & _). apply claim_nonneg. Qed.

Definition astep (pgal : nat -> Q) (acc : nat -> Q) (e : nat * nbr_out) : nat -> Q :=
  if no_mask (snd e) && Qlt_bool 0 (no_p (snd e))
  then upd acc (fst e) (pgal (fst e) + no_p (snd e))%Q else acc.

Lemma astep_notin pgal l : forall acc g, ~ In g (map fst l) -> fold_left (astep pgal) l acc g = acc g.
Proof.
  induction l as [|e l IH]; intros acc g Hg; [reflexivity|]. cbn [fold_left map] in *.
  rewrite IH by (intros H; apply Hg; right; exact H).
  unfold astep. destruct (_ && _); [|reflexivity]. apply upd_other. intros ->. apply Hg. left; reflexivity.
Qed.

Lemma clm_notin l g : ~ In g (map fst l) -> (Qsum (map (fun e => clm e g) l) == 0)%Q.
Proof.
  induction l as [|e l IH]; intros H; cbn [map Qsum]; [reflexivity|].
  cbn [map] in H. rewrite IH by (intros H1; apply H; right; exact H1).
  unfold clm. destruct (Nat.eqb_spec (fst e) g) as [E|n]; [exfalso; apply H; left; exact E|]. cbn [andb]. ring.
Qed.

Lemma astep_claim pgal l : NoDup (map fst l) -> forall acc g, acc g = pgal g ->
  (fold_left (astep pgal) l acc g == pgal g + Qsum (map (fun e => clm e g) l))%Q.
Proof.
  induction l as [|e l IH]; intros Hnd acc g Hacc; cbn [fold_left map Qsum].
  - rewrite Hacc. ring.
  - cbn [map] in Hnd. inversion Hnd as [|? ? Hn Hd]; subst.
    destruct (Nat.eq_dec (fst e) g) as [<-|n].
    + rewrite astep_notin by exact Hn. rewrite clm_notin by exact Hn.
      unfold astep, clm. rewrite Nat.eqb_refl. cbn [andb].
      destruct (_ && _); [rewrite upd_same; ring|rewrite Hacc; ring].
    + rewrite IH; [|exact Hd|].
      * unfold clm at 2. destruct (Nat.eqb_spec (fst e) g) as [q|_]; [congruence|]. cbn [andb]. ring.
      * unfold astep. destruct (_ && _); [rewrite upd_other by congruence|]; exact Hacc.
Qed.

Lemma NoDup_fst_combine {A B} (l : list A) (m : list B) : NoDup l -> NoDup (map fst (combine l m)).
Proof.
  intros H; revert m; induction H as [|x l Hx H IH]; intros m; [constructor|].
  destruct m as [|y m]; [constructor|]. cbn [combine map fst]. constructor; [|apply IH].
  intros Hin. apply Hx. apply in_map_iff in Hin as ([a b] & <- & Hin). apply in_combine_l in Hin. exact Hin.
Qed.

Lemma add_claims_claim pgal c o g : NoDup (cl_nb c) ->
  (add_claims pgal (combine (cl_nb c) (oc_nbrs o)) g == pgal g + claim c o g)%Q.
Proof.
  intros H. unfold add_claims, claim. apply (astep_claim pgal). - apply NoDup_fst_combine, H. - reflexivity.
Qed.

Lemma taken_app h c o g : (taken (h ++ [(c, o)]) g == taken h g + claim c o g)%Q.
Proof. unfold taken. rewrite map_app, Qsum_app. cbn [map Qsum fst snd]. ring. Qed.

Lemma run_loop_snoc f proc cs c : run_loop f proc (cs ++ [c]) = run_step f proc (run_loop f proc cs) c.
Proof. unfold run_loop. rewrite fold_left_app. reflexivity. Qed.

Lemma history_snoc proc cs c : forall past,
  history proc past (cs ++ [c]) =
  (let h := history proc past cs in
   let o := proc c (map (fun g => (1 - taken h g)%Q) (cl_nb c)) in
   if Nat.eqb (List.length (cl_nb c)) 0 || oc_bad o then h else h ++ [(c, o)]).
Proof.
  induction cs as [|d cs IH]; intros past; cbn [app history].
  - cbv zeta. reflexivity.
  - cbv zeta. rewrite IH. reflexivity.
Qed.

Lemma handed_taken f pgal h c : fl_perc f = true -> (forall g, pgal g == taken h g)%Q ->
  Forall2 Qeq (handed f pgal c) (map (fun g => (1 - taken h g)%Q) (cl_nb c)).
Proof.
  intros Hf H. unfold handed. rewrite Hf. induction (cl_nb c) as [|g l IH]; cbn [map]; constructor; [rewrite H; reflexivity|exact IH].
Qed.

Lemma perc_exact f proc cs : fl_perc f = true -> respects_Qeq proc -> Forall (fun c => NoDup (cl_nb c)) cs ->
  forall g, (rs_pgal (run_loop f proc cs) g == taken (history proc [] cs) g)%Q.
Proof.
  intros Hf Hr. induction cs as [|c cs IH] using rev_ind; intros Hnd g; [cbn; reflexivity|].
  apply Forall_app in Hnd as [Hnd Hc]. apply Forall_inv in Hc. specialize (IH Hnd).
  rewrite run_loop_snoc, history_snoc. cbv zeta.
  set (h := history proc [] cs) in *. set (s := run_loop f proc cs) in *.
  pose proof (handed_taken f (rs_pgal s) h c Hf IH) as Hh.
  unfold run_step, step. destruct (cl_nb c) as [|n l] eqn:E.
  - cbn [List.length Nat.eqb orb rs_pgal]. apply IH.
  - cbn [List.length Nat.eqb orb]. rewrite <- (Hr c _ _ Hh).
    destruct (oc_bad _) eqn:Eb; cbn [rs_pgal]; [apply IH|].
    rewrite Hf, taken_app, <- E, add_claims_claim by (rewrite E; exact Hc). rewrite IH. reflexivity.
Qed.

Lemma add_claims_ge pgal l g : NoDup (map fst l) -> (pgal g <= add_claims pgal l g)%Q.
Proof.
  intros H. unfold add_claims. rewrite (astep_claim pgal l H pgal g eq_refl).
  assert (0 <= Qsum (map (fun e => clm e g) l))%Q; [|lra].
  apply Qsum_nonneg. intros x Hx. apply in_map_iff in Hx as (e & <- & _). apply clm_nonneg.
Qed.

Lemma run_step_mono f proc s c g : NoDup (cl_nb c) -> (rs_pgal s g <= rs_pgal (run_step f proc s c) g)%Q.
Proof.
  intros H. unfold run_step, step. destruct (cl_nb c) as [|n l] eqn:E; cbn [rs_pgal]; [lra|].
  destruct (oc_bad _); cbn [rs_pgal]; [lra|]. destruct (fl_perc f); [|lra].
  apply add_claims_ge, NoDup_fst_combine. exact H.
Qed.

Lemma run_mono f proc cs ds g : Forall (fun c => NoDup (cl_nb c)) ds ->
  (rs_pgal (run_loop f proc cs) g <= rs_pgal (run_loop f proc (cs ++ ds)) g)%Q.
Proof.
  induction ds as [|d ds IH] using rev_ind; intros H; [rewrite app_nil_r; lra|].
  apply Forall_app in H as [H Hd]. apply Forall_inv in Hd.
  rewrite app_assoc, run_loop_snoc. pose proof (run_step_mono f proc (run_loop f proc (cs ++ ds)) d g Hd).
  specialize (IH H). lra.
Qed.

Lemma run_nonneg f proc cs g : Forall (fun c => NoDup (cl_nb c)) cs -> (0 <= rs_pgal (run_loop f proc cs) g)%Q.
Proof. intros H. pose proof (run_mono f proc [] cs g H) as H1. cbn in H1. exact H1. Qed.

(** guard: a cluster never claims more than it was handed *)
Lemma claims_bounded pgal l (os : list nbr_out) :
  Forall2 (fun pf o => no_mask o = true -> (no_p o <= pf)%Q) (map (fun g => (1 - pgal g)%Q) l) os ->
  NoDup l -> (forall g, pgal g <= 1)%Q -> forall g, (add_claims pgal (combine l os) g <= 1)%Q.
Proof.
  intros HF Hnd Hle g. unfold add_claims.
  rewrite (astep_claim pgal _ (NoDup_fst_combine l os Hnd) pgal g eq_refl).
  assert (Hs : (Qsum (map (fun e => clm e g) (combine l os)) <= 1 - pgal g)%Q); [|lra].
  clear - HF Hnd Hle. revert os HF. induction l as [|a l IH]; intros os HF; inversion HF as [|? ? ? ? Hp HF']; subst.
  - cbn. specialize (Hle g). lra.
  - inversion Hnd as [|? ? Hn Hd]; subst. cbn [combine map Qsum]. specialize (IH Hd _ HF').
    unfold clm at 1. cbn [fst snd]. destruct (Nat.eqb_spec a g) as [->|n]; cbn [andb].
    + rewrite clm_notin.
      * destruct (no_mask y) eqn:Em; cbn [andb]; [|specialize (Hle g); lra].
        specialize (Hp eq_refl). destruct (Qlt_bool 0 (no_p y)); [lra|specialize (Hle g); lra].
      * intros H. apply in_map_iff in H as ([u v] & Hu & Hin). cbn in Hu. subst u. apply in_combine_l in Hin. contradiction.
    + lra.
Qed.

Lemma perc_guard f proc cs : fl_perc f = true -> Forall (fun c => NoDup (cl_nb c)) cs ->
  (forall c pf, Forall2 (fun x o => no_mask o = true -> (no_p o <= x)%Q) pf (oc_nbrs (proc c pf))) ->
  forall g, (rs_pgal (run_loop f proc cs) g <= 1)%Q.
Proof.
  intros Hf Hnd Hg. induction cs as [|c cs IH] using rev_ind; intros g; [cbn; lra|].
  apply Forall_app in Hnd as [Hnd Hc]. apply Forall_inv in Hc. specialize (IH Hnd).
  rewrite run_loop_snoc. unfold run_step, step. destruct (cl_nb c) as [|n l] eqn:E; [apply IH|].
  destruct (oc_bad _); cbn [rs_pgal]; [apply IH|]. rewrite Hf, <- E. apply claims_bounded; [|rewrite E; exact Hc|exact IH].
  unfold handed. rewrite Hf. apply Hg.
Qed.

(** a galaxy claimed by at most one cluster *)
Lemma taken_single h g : (forall i j a b, nth_error h i = Some a -> nth_error h j = Some b ->
    (0 < claim (fst a) (snd a) g)%Q -> (0 < claim (fst b) (snd b) g)%Q -> i = j) ->
  (forall a, In a h -> claim (fst a) (snd a) g <= 1)%Q -> (taken h g <= 1)%Q.
Proof.
  induction h as [|a h IH]; intros Hu Hb; [cbn; lra|].
  unfold taken in *. cbn [map Qsum].
  destruct (Qlt_le_dec 0 (claim (fst a) (snd a) g)) as [Hp|Hn].
  - assert (Hz : (Qsum (map (fun e => claim (fst e) (snd e) g) h) == 0)%Q).
    { assert (Hall : forall b, In b h -> (claim (fst b) (snd b) g == 0)%Q).
      { intros b Hin. apply In_nth_error in Hin as [k Hk].
        destruct (Qlt_le_dec 0 (claim (fst b) (snd b) g)) as [Hq|Hq].
        - specialize (Hu 0 (S k) a b eq_refl Hk Hp Hq). discriminate.
        - pose proof (claim_nonneg (fst b) (snd b) g). lra. }
      clear - Hall. induction h as [|b h IH]; cbn [map Qsum]; [reflexivity|].
      rewrite (Hall b) by (left; reflexivity). rewrite IH; [ring|]. intros b' Hb'. apply Hall. right; exact Hb'. }
    rewrite Hz. specialize (Hb a (or_introl eq_refl)). lra.
  - pose proof (claim_nonneg (fst a) (snd a) g). 
    assert (Qsum (map (fun e => claim (fst e) (snd e) g) h) <= 1)%Q; [|lra].
    apply IH.
    + intros i j x y Hi Hj Hx Hy. assert (S i = S j) by (apply (Hu (S i) (S j) x y); assumption). lia.
    + intros x Hx. apply Hb. right; exact Hx.
Qed.

(** * ids *)
Lemma fold_min_spec t : forall x, (fold_left Z.min t x <= x)%Z /\ (forall y, In y t -> (fold_left Z.min t x <= y)%Z).
Proof.
  induction t as [|a t IH]; intros x; cbn; [split; [lia|intros y []]|].
  destruct (IH (Z.min x a)) as [H1 H2]. split; [lia|]. intros y [<-|Hy]; [lia|apply H2, Hy].
Qed.
Lemma fold_max_spec t : forall x, (x <= fold_left Z.max t x)%Z /\ (forall y, In y t -> (y <= fold_left Z.max t x)%Z).
Proof.
  induction t as [|a t IH]; intros x; cbn; [split; [lia|intros y []]|].
  destruct (IH (Z.max x a)) as [H1 H2]. split; [lia|]. intros y [<-|Hy]; [lia|apply H2, Hy].
Qed.
Lemma fold_min_in t : forall x, fold_left Z.min t x = x \/ In (fold_left Z.min t x) t.
Proof.
  induction t as [|a t IH]; intros x; cbn; [left; reflexivity|].
  destruct (IH (Z.min x a)) as [->|H]; [|right; right; exact H]. destruct (Z.min_spec x a) as [[_ ->]|[_ ->]]; auto.
Qed.
Lemma fold_max_in t : forall x, fold_left Z.max t x = x \/ In (fold_left Z.max t x) t.
Proof.
  induction t as [|a t IH]; intros x; cbn; [left; reflexivity|].
  destruct (IH (Z.max x a)) as [->|H]; [|right; right; exact H]. destruct (Z.max_spec x a) as [[_ ->]|[_ ->]]; auto.
Qed.

Lemma minmax_eq x t : (fold_left Z.min t x =? fold_left Z.max t x)%Z = true <-> (forall y, In y (x :: t) -> y = x).
Proof.
  rewrite Z.eqb_eq. pose proof (fold_min_spec t x) as [A1 A2]. pose proof (fold_max_spec t x) as [B1 B2]. split.
  - intros H y [<-|Hy]; [reflexivity|]. specialize (A2 y Hy). specialize (B2 y Hy). lia.
  - intros H. destruct (fold_min_in t x) as [->|E1]; destruct (fold_max_in t x) as [->|E2]; auto.
    + symmetry. apply H. right; exact E2.
    + apply H. right; exact E1.
    + rewrite (H _ (or_intror E1)), (H _ (or_intror E2)). reflexivity.
Qed.

Lemma nodup_len_iff (l : list Z) : Nat.eqb (List.length (nodup Z.eq_dec l)) (List.length l) = true <-> NoDup l.
Proof.
  rewrite Nat.eqb_eq. split.
  - induction l as [|a l IH]; intros H; [constructor|].
    cbn [nodup] in H. destruct (in_dec Z.eq_dec a l) as [Hin|Hn].
    + assert (List.length (nodup Z.eq_dec l) <= List.length l).
      { apply NoDup_incl_length; [apply NoDup_nodup|]. intros z Hz. apply nodup_In in Hz. exact Hz. }
      cbn [List.length] in H. lia.
    + cbn [List.length] in H. constructor; [exact Hn|]. apply IH. lia.
  - intros H. rewrite nodup_fixed_point by exact H. reflexivity.
Qed.

Lemma ids_seq_NoDup n : NoDup (map (fun k => Z.of_nat (S k)) (seq 0 n)).
Proof.
  apply FinFun.Injective_map_NoDup; [|apply seq_NoDup]. intros a b H. lia.
Qed.

Lemma generate_ok ids r : generate_ids ids = Ok r -> NoDup r /\ List.length r = List.length ids.
Proof.
  destruct ids as [|x t]; [discriminate|]. unfold generate_ids.
  destruct (_ =? _)%Z; [intros H; apply (f_equal (fun z => match z with Ok v => v | Err _ => [] end)) in H; cbv beta iota in H; rewrite <- H; split; [apply ids_seq_NoDup|rewrite map_length, seq_length; reflexivity]|].
  destruct (Nat.eqb _ _) eqn:E; [|discriminate]. intros [= <-]. split; [apply nodup_len_iff, E|reflexivity].
Qed.

Lemma generate_kept ids : NoDup ids -> 2 <= List.length ids -> generate_ids ids = Ok ids.
Proof.
  intros H Hl. destruct ids as [|x [|y t]]; cbn in Hl; [lia|lia|].
  unfold generate_ids. destruct (_ =? _)%Z eqn:E.
  - pose proof (proj1 (minmax_eq x (y :: t)) E) as E1. clear E. exfalso.
    inversion H as [|? ? Hn _]; subst. apply Hn. left. apply E1. right; left; reflexivity.
  - apply nodup_len_iff in H. rewrite H. reflexivity.
Qed.

Lemma generate_same i n : generate_ids (repeat i (S n)) = Ok (map (fun k => Z.of_nat (S k)) (seq 0 (S n))).
Proof.
  change (repeat i (S n)) with (i :: repeat i n). unfold generate_ids.
  destruct (_ =? _)%Z eqn:E.
  - cbn [List.length]. rewrite repeat_length. reflexivity.
  - exfalso. enough (E' : (fold_left Z.min (repeat i n) i =? fold_left Z.max (repeat i n) i)%Z = true) by congruence.
    apply minmax_eq. intros y [<-|Hy]; [reflexivity|]. apply repeat_spec in Hy. exact Hy.
Qed.

Lemma generate_dups ids : generate_ids ids = Err RuntimeError <->
  (~ NoDup ids /\ exists a b, In a ids /\ In b ids /\ a <> b).
Proof.
  destruct ids as [|x t].
  - split; [discriminate|]. intros [H _]. exfalso. apply H. constructor.
  - unfold generate_ids. destruct (_ =? _)%Z eqn:E.
    + split; [discriminate|]. intros [_ (a & b & Ha & Hb & Hab)].
      pose proof (proj1 (minmax_eq x t) E) as E'. exfalso. apply Hab. rewrite (E' a Ha), (E' b Hb). reflexivity.
    + destruct (Nat.eqb _ _) eqn:E2.
      * split; [discriminate|]. intros [H _]. exfalso. apply H. apply nodup_len_iff, E2.
      * split; [|reflexivity]. intros _. split.
        -- intros H. apply nodup_len_iff in H. congruence.
        -- assert (Hn : ~ forall y, In y (x :: t) -> y = x).
           { intros H. apply minmax_eq in H. congruence. }
           assert (Hd : exists y, In y (x :: t) /\ y <> x).
           { clear - Hn. destruct (Exists_dec (fun y => y <> x) (x :: t)) as [H|H].
             - intros y. destruct (Z.eq_dec y x); [right|left]; congruence.
             - apply Exists_exists in H. exact H.
             - exfalso. apply Hn. intros y Hy. destruct (Z.eq_dec y x) as [|n]; [assumption|].
               exfalso. apply H. apply Exists_exists. eauto. }
           destruct Hd as (y & Hy & Hne). exists y, x. split; [exact Hy|]. split; [left; reflexivity|exact Hne].
Qed.

(** * catalog and members *)
Lemma run_cat f proc cs : forall k c, nth_error cs k = Some c ->
  nth_error (rs_cat (run_loop f proc cs)) k = Some (row f proc cs k c).
Proof.
  induction cs as [|d cs IH] using rev_ind; intros k c Hk; [destruct k; discriminate|].
  assert (Hlen : List.length (rs_cat (run_loop f proc cs)) = List.length cs).
  { clear. induction cs as [|d cs IH] using rev_ind; [reflexivity|]. rewrite run_loop_snoc. unfold run_step.
    destruct (step _ _ _ _) as [[r pg] m]. cbn [rs_cat]. rewrite !app_length, IH. reflexivity. }
  rewrite run_loop_snoc. unfold run_step. destruct (step f proc (rs_pgal (run_loop f proc cs)) d) as [[r pg] m] eqn:E.
  cbn [rs_cat]. destruct (Nat.lt_ge_cases k (List.length cs)) as [Hlt|Hge].
  - rewrite nth_error_app1 in Hk by exact Hlt. rewrite nth_error_app1 by lia. rewrite (IH k c Hk).
    unfold row, before. rewrite firstn_app. replace (k - List.length cs) with 0 by lia.
    cbn [firstn]. rewrite app_nil_r. reflexivity.
  - rewrite nth_error_app2 in Hk by exact Hge. destruct (k - List.length cs) as [|j] eqn:Ej; [|destruct j; discriminate].
    injection Hk as ->. rewrite nth_error_app2 by lia. rewrite Hlen, Ej. cbn [nth_error].
    unfold row, before. rewrite firstn_app, Ej. cbn [firstn]. rewrite app_nil_r, firstn_all2 by exact Hge.
    rewrite E. reflexivity.
Qed.

Lemma run_cat_length f proc cs : List.length (rs_cat (run_loop f proc cs)) = List.length cs.
Proof.
  induction cs as [|d cs IH] using rev_ind; [reflexivity|]. rewrite run_loop_snoc. unfold run_step.
  destruct (step _ _ _ _) as [[r pg] m]. cbn [rs_cat]. rewrite !app_length, IH. reflexivity.
Qed.

Lemma step_id f proc pg c : cr_id (fst (fst (step f proc pg c))) = cl_id c.
Proof. unfold step. destruct (cl_nb c); [reflexivity|]. destruct (oc_bad _); reflexivity. Qed.

Lemma run_cat_ids f proc cs : map cr_id (rs_cat (run_loop f proc cs)) = map cl_id cs.
Proof.
  induction cs as [|d cs IH] using rev_ind; [reflexivity|]. rewrite run_loop_snoc. unfold run_step.
  pose proof (step_id f proc (rs_pgal (run_loop f proc cs)) d) as Hid.
  destruct (step _ _ _ _) as [[r pg] m]. cbn [rs_cat fst] in *. rewrite !map_app, IH. cbn [map]. rewrite Hid. reflexivity.
Qed.

Definition olist {A} (o : option (list A)) : list A := match o with Some l => l | None => [] end.
Lemma olist_add ms new : olist (add_members ms new) = olist ms ++ olist new.
Proof. destruct ms, new; cbn; rewrite ?app_nil_r; reflexivity. Qed.

Lemma saved_snoc f proc cs d k c : k < List.length cs -> saved f proc (cs ++ [d]) k c = saved f proc cs k c.
Proof.
  intros H. unfold saved, before. rewrite firstn_app. replace (k - List.length cs) with 0 by lia.
  cbn [firstn]. rewrite app_nil_r. reflexivity.
Qed.

Lemma run_mem f proc cs : olist (rs_mem (run_loop f proc cs)) =
  List.concat (map (fun kc => saved f proc cs (fst kc) (snd kc)) (combine (seq 0 (List.length cs)) cs)).
Proof.
  induction cs as [|d cs IH] using rev_ind; [reflexivity|].
  rewrite run_loop_snoc. unfold run_step.
  destruct (step f proc (rs_pgal (run_loop f proc cs)) d) as [[r pg] m] eqn:E. cbn [rs_mem].
  rewrite olist_add, IH, app_length. cbn [List.length]. rewrite seq_app. cbn [seq plus].
  assert (Hc : forall (a1 : list nat) (b1 : list cl) a2 b2, List.length a1 = List.length b1 ->
             combine (a1 ++ a2) (b1 ++ b2) = combine a1 b1 ++ combine a2 b2).
  { induction a1 as [|x a1 IHa]; intros [|y b1] a2 b2 Hl; cbn in *; try discriminate; [reflexivity|].
    f_equal. apply IHa. lia. }
  rewrite Hc by (rewrite seq_length; reflexivity). cbn [combine].
  rewrite map_app, concat_app. f_equal.
  - f_equal. apply map_ext_in. intros [k c] Hin. apply in_combine_l in Hin. apply in_seq in Hin.
    cbn [fst snd]. symmetry. apply saved_snoc. lia.
  - cbn [map List.concat fst snd]. rewrite app_nil_r. unfold saved, before.
    rewrite firstn_app, Nat.sub_diag. cbn [firstn]. rewrite app_nil_r, firstn_all, E. reflexivity.
Qed.

Lemma step_mem_id f proc pg c m l : snd (step f proc pg c) = Some l -> In m l -> mr_id m = cl_id c.
Proof.
  unfold step. destruct (cl_nb c) as [|n t]; [discriminate|]. destruct (oc_bad _); [discriminate|].
  cbn [snd]. destruct (fl_record f); [|discriminate]. intros [= <-] Hin.
  unfold mem_of in Hin. apply in_flat_map in Hin as ([[g pf] o] & _ & Hin).
  destruct (_ || _); [|destruct Hin]. destruct Hin as [<-|[]]. reflexivity.
Qed.

Lemma saved_id f proc cs k c m : In m (saved f proc cs k c) -> mr_id m = cl_id c.
Proof.
  unfold saved. destruct (snd (step _ _ _ _)) as [l|] eqn:E; [|intros []]. apply step_mem_id with (1 := E).
Qed.

Lemma mem_of_spec f id l m : In m (mem_of f id l) <->
  exists g pf o, In ((g, pf), o) l /\ m = mkMR id g (no_p o) (if mem_ok f o then pf else 0%Q) /\
  ((mem_ok f o = true /\ (1#100 < pf)%Q) \/ no_cand o = true).
Proof.
  unfold mem_of. rewrite in_flat_map. split.
  - intros ([[g pf] o] & Hin & H). exists g, pf, o. split; [exact Hin|].
    destruct (Qlt_bool (1#100) _ || no_cand o) eqn:E; [|destruct H]. destruct H as [<-|[]]. split; [reflexivity|].
    apply orb_true_iff in E as [E|E]; [left|right; exact E].
    destruct (mem_ok f o); [split; [reflexivity|apply Qlt_bool_iff, E]|discriminate].
  - intros (g & pf & o & Hin & -> & H). exists ((g, pf), o). split; [exact Hin|].
    replace (Qlt_bool (1#100) (if mem_ok f o then pf else 0%Q) || no_cand o) with true; [left; reflexivity|].
    symmetry. apply orb_true_iff. destruct H as [[-> H]|H]; [left; apply Qlt_bool_iff, H|right; exact H].
Qed.

Lemma post_ok mn s cat mem : postprocess mn s = Ok (cat, mem) ->
  cat = filter (fun r => Qle_bool mn (cr_lambda r)) (rs_cat s) /\
  mem = option_map (filter (fun m => Galfile.is_in (mr_id m) (map cr_id cat))) (rs_mem s).
Proof.
  unfold postprocess. destruct (rs_mem s) as [ms|].
  - intros H. destruct (eu_match _ _) as [m|] eqn:Em; [|discriminate]. cbn [bind] in H.
    destruct (Verif.Proofs.Galfile.eu_match_filter _ _ _ _ Em) as [Hs Hi].
    rewrite (np_take_ok _ _ Hi) in H. cbn [bind] in H. injection H as <- <-. split; [reflexivity|].
    cbn [option_map]. rewrite Hs. reflexivity.
  - intros [= <- <-]. split; reflexivity.
Qed.

Lemma post_succeeds mn s : NoDup (map cr_id (rs_cat s)) ->
  (exists r, In r (rs_cat s) /\ (mn <= cr_lambda r)%Q) -> rs_mem s <> Some [] ->
  exists cat mem, postprocess mn s = Ok (cat, mem).
Proof.
  intros Hnd (r & Hr & Hl) Hm. unfold postprocess. destruct (rs_mem s) as [ms|]; [|eauto].
  set (cat := filter _ _). unfold eu_match.
  assert (Hc : In r cat) by (apply filter_In; split; [exact Hr|apply Qle_bool_iff, Hl]).
  destruct cat as [|c0 cat'] eqn:Ec; [destruct Hc|]. destruct ms as [|m0 ms]; [congruence|].
  cbn [map List.length Nat.eqb orb].
  assert (Hd : nodupZ (cr_id c0 :: map cr_id cat') = true).
  { apply nodupZ_iff. change (NoDup (map cr_id (c0 :: cat'))). rewrite <- Ec. unfold cat.
    clear - Hnd. induction (rs_cat s) as [|x l IH]; [constructor|]. cbn [filter map] in *.
    inversion Hnd as [|? ? Hn Hd]; subst. destruct (Qle_bool _ _); [|apply IH, Hd]. cbn [map]. constructor; [|apply IH, Hd].
    intros H. apply Hn. apply in_map_iff in H as (y & <- & Hy). apply filter_In in Hy as [Hy _]. apply in_map, Hy. }
  rewrite Hd. cbn [bind].
  destruct (Verif.Proofs.Galfile.eu_match_filter (cr_id c0 :: map cr_id cat') (m0 :: ms) mr_id
              (match_from (cr_id c0 :: map cr_id cat') 0 (mr_id m0 :: map mr_id ms))) as [_ Hi].
  { unfold eu_match. cbn [map List.length Nat.eqb orb]. rewrite Hd. reflexivity. }
  rewrite (np_take_ok _ _ Hi). cbn [bind]. eauto.
Qed.
