From Coq Require Import Permutation.
From Verif.Base Require Import Py PyLemmas Fn.
From Verif.Model Require Import Maker.
From Verif.Spec Require Import Maker.

Section M.
Variable e : env.
Hypothesis Hpix : forall d, pixof e d < npix e.
Hypothesis Hord : forall l, Permutation (order e l) l.

Lemma order_length l : List.length (order e l) = List.length l.
Proof. apply Permutation_length, Hord. Qed.

Lemma chunk_ok_iff c : chunk_ok e c = true <-> acceptable e c.
Proof.
  unfold chunk_ok, acceptable. rewrite andb_true_iff, orb_true_iff, forallb_forall, nodupZ_iff.
  reflexivity.
Qed.

Definition pf (p : nat) (g : gal) : bool := Nat.eqb (pixof e (gdat g)) p.

(** the rows of pixel [p], chunk after chunk *)
Definition crows (p : nat) (cs : list (list gal)) : list gal :=
  List.concat (map (fun c => order e (filter (pf p) c)) cs).

(** invariant relating the maker to the accepted chunks [acc] (already mask-filtered) *)
Definition Inv (s : st) (acc : list (list gal)) : Prop :=
  finalized s = false /\ master s = None /\
  forall p, match files s p with
            | None => ngals s p = 0 /\ crows p acc = []
            | Some l => ngals s p = List.length l /\ l <> [] /\ l = crows p acc
            end.

Lemma inv_fresh : Inv fresh [].
Proof. split; [reflexivity|]. split; [reflexivity|]. intros p. cbn. auto. Qed.

(** effect of [write_pixels] on the listed pixels *)
Lemma write_pixels_inv s gals pixs :
  NoDup pixs ->
  finalized s = false -> master s = None ->
  (forall p, match files s p with
            | None => ngals s p = 0
            | Some l => ngals s p = List.length l /\ l <> []
            end) ->
  (forall p, In p pixs -> filter (pf p) gals <> []) ->
  exists s', write_pixels e s gals pixs = (s', Ok tt) /\
    finalized s' = false /\ master s' = None /\
    forall p, files s' p = (if in_dec Nat.eq_dec p pixs then Some (stored s p ++ rows_of e p gals) else files s p)
           /\ ngals s' p = (if in_dec Nat.eq_dec p pixs then ngals s p + List.length (rows_of e p gals) else ngals s p).
Proof.
  revert s; induction pixs as [|p pixs IH]; intros s Hnd Hfin Hmas Hs Hne.
  - exists s. cbn. repeat split; auto.
  - inversion Hnd as [|? ? Hni Hnd']; subst. cbn [write_pixels].
    assert (Hrows : rows_of e p gals <> []).
    { intros E. apply (Hne p (or_introl eq_refl)). pose proof (Hord (filter (pf p) gals)) as HP.
      unfold rows_of in E. unfold pf in HP |- *. rewrite E in HP.
      apply Permutation_nil in HP. exact HP. }
    assert (Hstep : exists f, f = stored s p ++ rows_of e p gals /\
      write_pixels e s gals (p :: pixs) =
      write_pixels e (mkS (upd (files s) p (Some f)) (upd (ngals s) p (ngals s p + List.length (rows_of e p gals)))
                          (master s) (finalized s)) gals pixs).
    { cbn [write_pixels]. pose proof (Hs p) as Hp. unfold stored. destruct (files s p) as [l|] eqn:Ef.
      - destruct Hp as [Hn Hl]. destruct (Nat.eqb_spec (ngals s p) 0) as [z|nz].
        + exfalso. destruct l; [congruence|cbn in Hn; lia].
        + cbn [andb]. eexists; split; [reflexivity|]. reflexivity.
      - rewrite Hp. cbn. eexists; split; reflexivity. }
    destruct Hstep as (f & Hf & Hstep). cbn [write_pixels] in Hstep. rewrite Hstep. clear Hstep.
    destruct (IH (mkS (upd (files s) p (Some f)) (upd (ngals s) p (ngals s p + List.length (rows_of e p gals)))
                          (master s) (finalized s))) as (s' & Hw & Hf' & Hm' & Hall).
    + exact Hnd'.
    + exact Hfin.
    + exact Hmas.
    + intros q. cbn [files ngals]. destruct (Nat.eq_dec q p) as [->|nq].
      * rewrite !upd_same. subst f. split; [|intros E; apply app_eq_nil in E; tauto].
        rewrite app_length. f_equal. pose proof (Hs p) as Hp. unfold stored.
        destruct (files s p); cbn; [tauto|exact Hp].
      * rewrite !upd_other by exact nq. apply Hs.
    + intros q Hq. apply Hne. right; exact Hq.
    + exists s'. split; [exact Hw|]. split; [exact Hf'|]. split; [exact Hm'|].
      intros q. destruct (Hall q) as [H1 H2]. rewrite H1, H2. cbn [files ngals].
      destruct (Nat.eq_dec q p) as [->|nq].
      * destruct (in_dec Nat.eq_dec p pixs) as [i|_]; [contradiction|].
        destruct (in_dec Nat.eq_dec p (p :: pixs)) as [_|n]; [|exfalso; apply n; left; reflexivity].
        rewrite !upd_same. subst f. auto.
      * rewrite !upd_other by exact nq.
        destruct (in_dec Nat.eq_dec q pixs) as [i|n]; destruct (in_dec Nat.eq_dec q (p :: pixs)) as [i'|n'];
          try (exfalso; cbn in *; intuition congruence); unfold stored; cbn [files ngals];
          rewrite ?upd_other by exact nq; auto.
Qed.

Lemma filter_comm_and {A} (f g : A -> bool) l : filter f (filter g l) = filter (fun x => g x && f x) l.
Proof.
  induction l as [|a l IH]; cbn; [reflexivity|]. destruct (g a); cbn; [|exact IH].
  destruct (f a); rewrite IH; reflexivity.
Qed.

Definition accepted (c : list gal) : list (list gal) :=
  if chunk_ok e c then [filter (fun g => inmask e (gdat g)) c] else [].

Lemma crows_app p a b : crows p (a ++ b) = crows p a ++ crows p b.
Proof. unfold crows. rewrite map_app, concat_app. reflexivity. Qed.
Lemma order_nil : order e [] = [].
Proof. apply Permutation_nil. symmetry. apply Hord. Qed.

Lemma append_inv s acc c :
  Inv s acc ->
  exists s', append_galaxies e s c = (s', if chunk_ok e c then Ok tt else Err RuntimeError) /\
             Inv s' (acc ++ accepted c) /\ (chunk_ok e c = false -> s' = s).
Proof.
  intros (Hf & Hm & Hp). unfold append_galaxies, accepted. rewrite Hf, Hm.
  destruct (chunk_ok e c); cbn [negb].
  2:{ exists s. rewrite app_nil_r. repeat split; auto. }
  set (gals := filter (fun g => inmask e (gdat g)) c).
  set (gd := filter _ (seq 0 (npix e))).
  assert (Hin : forall p, In p gd <-> filter (pf p) gals <> []).
  { intros p. unfold gd. rewrite filter_In, in_seq. rewrite negb_true_iff, Nat.eqb_neq. fold (pf p).
    change (fun g : gal => pixof e (gdat g) =? p) with (pf p). split.
    - intros [_ H] E. rewrite E in H. cbn in H. congruence.
    - intros H. split.
      + destruct (filter (pf p) gals) as [|g l] eqn:E; [congruence|].
        assert (In g (filter (pf p) gals)) as Hg by (rewrite E; left; reflexivity).
        apply filter_In in Hg. destruct Hg as [_ Hg]. apply Nat.eqb_eq in Hg. specialize (Hpix (gdat g)). lia.
      + destruct (filter (pf p) gals); [congruence|discriminate]. }
  destruct (write_pixels_inv s gals gd) as (s' & Hw & Hf' & Hm' & Hall); auto.
  - apply NoDup_filter, seq_NoDup.
  - intros p. specialize (Hp p). destruct (files s p); tauto.
  - intros p H. apply Hin, H.
  - exists s'. split; [exact Hw|]. split; [|discriminate].
    split; [exact Hf'|]. split; [exact Hm'|]. intros p. destruct (Hall p) as [H1 H2].
    rewrite H1, H2. rewrite crows_app.
    assert (Hone : crows p [gals] = rows_of e p gals) by (unfold crows; cbn; apply app_nil_r).
    rewrite Hone. destruct (in_dec Nat.eq_dec p gd) as [i|n].
    + specialize (Hp p). unfold stored. apply Hin in i.
      pose proof (Hord (filter (pf p) gals)) as HP. change (order e (filter (pf p) gals)) with (rows_of e p gals) in HP.
      assert (Hrne : rows_of e p gals <> []).
      { intros E. rewrite E in HP. apply Permutation_nil in HP. congruence. }
      destruct (files s p) as [l|].
      * destruct Hp as (Hn & Hl & HPl). rewrite app_length. split; [lia|]. split.
        -- intros E. apply app_eq_nil in E. tauto.
        -- rewrite <- HPl. reflexivity.
      * destruct Hp as (Hn & He). cbn [app]. rewrite He. cbn [app]. split; [lia|]. split; [assumption|reflexivity].
    + assert (He : filter (pf p) gals = []).
      { destruct (filter (pf p) gals) eqn:E; [reflexivity|]. exfalso. apply n, Hin. congruence. }
      unfold rows_of. fold (pf p). change (fun g : gal => pixof e (gdat g) =? p) with (pf p).
      rewrite He, order_nil, app_nil_r. apply Hp.
Qed.

Lemma append_many_inv cs : forall s acc, Inv s acc ->
  exists s', append_many e s cs = (s', map (fun c => if chunk_ok e c then Ok tt else Err RuntimeError) cs) /\
             Inv s' (acc ++ List.concat (map accepted cs)).
Proof.
  induction cs as [|c cs IH]; intros s acc Hs; cbn.
  - exists s. rewrite app_nil_r. auto.
  - destruct (append_inv s acc c Hs) as (s1 & H1 & H2 & _). rewrite H1.
    destruct (IH _ _ H2) as (s2 & H3 & H4). rewrite H3. exists s2. split; [reflexivity|].
    rewrite <- app_assoc in H4. exact H4.
Qed.

Lemma accepted_belongs p cs :
  crows p (List.concat (map accepted cs)) =
  List.concat (map (fun c => order e (belongs e p c)) (filter (chunk_ok e) cs)).
Proof.
  unfold belongs. induction cs as [|c cs IH]; [reflexivity|]. cbn [map List.concat filter].
  rewrite crows_app, IH. unfold accepted. destruct (chunk_ok e c); cbn; [|reflexivity].
  f_equal. unfold crows. cbn. rewrite app_nil_r, filter_comm_and. reflexivity.
Qed.
Lemma order_concat p cs :
  Permutation (List.concat (map (fun c => order e (belongs e p c)) cs)) (belongs e p (List.concat cs)).
Proof.
  induction cs as [|c cs IH]; [reflexivity|]. cbn [map List.concat].
  assert (E : belongs e p (c ++ List.concat cs) = belongs e p c ++ belongs e p (List.concat cs))
    by (unfold belongs; apply filter_app). rewrite E.
  apply Permutation_app; [apply Hord|exact IH].
Qed.

Lemma serial_conservation cs :
  exists s', append_many e fresh cs =
     (s', map (fun c => if chunk_ok e c then Ok tt else Err RuntimeError) cs) /\
  forall p, stored s' p = List.concat (map (fun c => order e (belongs e p c)) (filter (chunk_ok e) cs)) /\
            Permutation (stored s' p) (belongs e p (List.concat (filter (chunk_ok e) cs))) /\
            ngals s' p = List.length (stored s' p) /\
            (files s' p = None <-> stored s' p = []).
Proof.
  destruct (append_many_inv cs fresh [] inv_fresh) as (s' & H1 & H2). exists s'. split; [exact H1|].
  intros p. destruct H2 as (_ & _ & H2). specialize (H2 p). cbn [app] in H2.
  rewrite accepted_belongs in H2.
  assert (HS : stored s' p = List.concat (map (fun c => order e (belongs e p c)) (filter (chunk_ok e) cs))).
  { unfold stored. destruct (files s' p); [tauto|symmetry; tauto]. }
  split; [exact HS|]. split; [rewrite HS; apply order_concat|].
  unfold stored. destruct (files s' p) as [l|].
  - destruct H2 as (H3 & H4 & H5). split; [exact H3|]. split; [discriminate|congruence].
  - destruct H2 as (H3 & H4). split; [exact H3|]. tauto.
Qed.

(** ** finalize *)
Lemma master_rows_spec s acc p n :
  Inv s acc -> (In (p, n) (master_rows e s) <-> p < npix e /\ exists l, files s p = Some l /\ n = List.length l).
Proof.
  intros (_ & _ & H). unfold master_rows. rewrite in_map_iff. split.
  - intros (q & [= <- <-] & Hq). apply filter_In in Hq. rewrite in_seq, negb_true_iff, Nat.eqb_neq in Hq.
    split; [lia|]. specialize (H q). destruct (files s q) as [l|]; [exists l; tauto|lia].
  - intros (Hp & l & Hl & ->). exists p. pose proof (H p) as Hpp. rewrite Hl in Hpp. destruct Hpp as (H1 & H2 & _).
    split; [rewrite H1; reflexivity|]. apply filter_In. rewrite in_seq, negb_true_iff, Nat.eqb_neq. split; [lia|].
    rewrite H1. destruct l; [congruence|discriminate].
Qed.
Lemma master_rows_nodup s : NoDup (map fst (master_rows e s)).
Proof.
  unfold master_rows. rewrite map_map. cbn [fst]. rewrite map_id. apply NoDup_filter, seq_NoDup.
Qed.

Lemma concat_filter_nonempty (f : nat -> list gal) (P : nat -> bool) l :
  (forall p, In p l -> P p = false -> f p = []) ->
  List.concat (map f (filter P l)) = List.concat (map f l).
Proof.
  induction l as [|a l IH]; intros H; cbn; [reflexivity|].
  destruct (P a) eqn:E; cbn; rewrite IH; auto; [intros; apply H; auto; right; assumption| |].
  - rewrite (H a (or_introl eq_refl) E). reflexivity.
  - intros; apply H; auto; right; assumption.
Qed.

Lemma read_ids_ok s acc : Inv s acc -> read_ids (files s) (master_rows e s) = Ok (map gid (all_stored e s)).
Proof.
  intros HI. unfold all_stored.
  rewrite <- (concat_filter_nonempty (stored s) (fun p => negb (Nat.eqb (ngals s p) 0))).
  2:{ intros p _ Hp. rewrite negb_false_iff, Nat.eqb_eq in Hp. destruct HI as (_ & _ & H). specialize (H p).
      unfold stored. destruct (files s p) as [l|]; [|reflexivity]. destruct H as (H1 & _). rewrite Hp in H1.
      destruct l; [reflexivity|discriminate]. }
  unfold master_rows.
  assert (Hall : forall p, In p (filter (fun p => negb (Nat.eqb (ngals s p) 0)) (seq 0 (npix e))) ->
            exists l, files s p = Some l /\ ngals s p = List.length l).
  { intros p Hp. apply filter_In in Hp. rewrite negb_true_iff, Nat.eqb_neq in Hp.
    destruct HI as (_ & _ & H). specialize (H p). destruct (files s p) as [l|]; [exists l; tauto|lia]. }
  induction (filter _ _) as [|p l IH]; cbn; [reflexivity|].
  destruct (Hall p (or_introl eq_refl)) as (l' & E1 & E2). rewrite E1, E2, Nat.eqb_refl.
  rewrite IH by (intros; apply Hall; right; assumption). cbn. rewrite map_app. unfold stored. rewrite E1. reflexivity.
Qed.

Lemma finalize_nogen s acc :
  genids e = false -> Inv s acc ->
  let '(s', r) := finalize_catalog e s in
  files s' = files s /\ master s' = Some (master_rows e s) /\
  (r = Ok tt <-> NoDup (map gid (all_stored e s))) /\
  (r <> Ok tt -> r = Err RuntimeError) /\ (r = Ok tt -> finalized s' = true).
Proof.
  intros Hg HI. unfold finalize_catalog. rewrite Hg, (read_ids_ok s acc HI).
  destruct (nodupZ _) eqn:E; cbn.
  - apply nodupZ_iff in E. repeat split; auto. congruence.
  - assert (Hn : ~ NoDup (map gid (all_stored e s))) by (rewrite <- nodupZ_iff; congruence).
    repeat split; auto; try discriminate. intros H; contradiction.
Qed.

Lemma renum_length c l : List.length (renum c l) = List.length l.
Proof. revert c; induction l; intros; cbn; auto. Qed.
Lemma renum_dat c l : map gdat (renum c l) = map gdat l.
Proof. revert c; induction l as [|g l IH]; intros; cbn; [reflexivity|]. rewrite IH; reflexivity. Qed.
Lemma renum_ids c l : map gid (renum c l) = map (fun i => (c + Z.of_nat i)%Z) (seq 0 (List.length l)).
Proof.
  revert c; induction l as [|g l IH]; intros c; cbn; [reflexivity|]. rewrite IH. f_equal; [lia|].
  rewrite <- seq_shift, map_map. apply map_ext. intros; lia.
Qed.

Lemma gen_ids_ok fs ctr pixs :
  NoDup pixs -> (forall p, In p pixs -> fs p <> None) ->
  exists fs', gen_ids fs ctr pixs = Ok fs' /\
    (forall p, ~ In p pixs -> fs' p = fs p) /\
    (forall p, match fs p, fs' p with
               | Some l, Some l' => map gdat l' = map gdat l
               | None, None => True | _, _ => False end) /\
    List.concat (map (fun p => match fs' p with Some l => map gid l | None => [] end) pixs) =
    map (fun i => (ctr + Z.of_nat i)%Z)
      (seq 0 (List.length (List.concat (map (fun p => match fs p with Some l => l | None => [] end) pixs)))).
Proof.
  revert fs ctr; induction pixs as [|p pixs IH]; intros fs ctr Hnd Hs; cbn [gen_ids].
  - exists fs. cbn. repeat split; auto. intros p; destruct (fs p); auto.
  - inversion Hnd as [|? ? Hni Hnd']; subst.
    destruct (fs p) as [l|] eqn:E; [|exfalso; apply (Hs p); [left; reflexivity|exact E]].
    destruct (IH (upd fs p (Some (renum ctr l))) (ctr + Z.of_nat (List.length l))%Z Hnd') as (fs' & H1 & H2 & H3 & H4).
    { intros q Hq. destruct (Nat.eq_dec q p) as [->|n]; [contradiction|]. rewrite upd_other by exact n. apply Hs; right; exact Hq. }
    exists fs'. split; [exact H1|]. split; [|split].
    + intros q Hq. cbn in Hq. rewrite H2 by tauto. apply upd_other. intuition.
    + intros q. specialize (H3 q). destruct (Nat.eq_dec q p) as [->|n].
      * rewrite upd_same in H3. rewrite E. destruct (fs' p); [|contradiction]. rewrite H3. apply renum_dat.
      * rewrite upd_other in H3 by exact n. exact H3.
    + cbn [map List.concat]. rewrite app_length, E.
      rewrite (H2 p Hni), upd_same. rewrite renum_ids. rewrite seq_app, map_app. f_equal.
      rewrite H4.
      assert (Hmap : map (fun q => match upd fs p (Some (renum ctr l)) q with Some l0 => l0 | None => [] end) pixs
                   = map (fun q => match fs q with Some l0 => l0 | None => [] end) pixs).
      { apply map_ext_in. intros q Hq. rewrite upd_other; [reflexivity|]. intros ->; contradiction. }
      rewrite Hmap. set (N := List.length (List.concat _)).
      cbn [Nat.add]. replace (seq (List.length l) N) with (map (fun i => List.length l + i) (seq 0 N)).
      * rewrite map_map. apply map_ext. intros; lia.
      * clear. generalize (List.length l) as k. intros k.
        revert k; induction N as [|N IH]; intros k; cbn; [reflexivity|]. f_equal; [lia|].
        rewrite <- seq_shift, map_map. rewrite <- IH with (k := S k). apply map_ext; intros; lia.
Qed.

Lemma finalize_gen s acc :
  genids e = true -> Inv s acc ->
  exists s', finalize_catalog e s = (s', Ok tt) /\ finalized s' = true /\
    master s' = Some (master_rows e s) /\
    (forall p, map gdat (stored s' p) = map gdat (stored s p)) /\
    map gid (all_stored e s') = one_to (List.length (all_stored e s)).
Proof.
  intros Hg HI. unfold finalize_catalog. rewrite Hg.
  assert (Hmap : map fst (master_rows e s) = filter (fun p => negb (Nat.eqb (ngals s p) 0)) (seq 0 (npix e))).
  { unfold master_rows. rewrite map_map. cbn [fst]. apply map_id. }
  destruct (gen_ids_ok (files s) 1%Z (map fst (master_rows e s)) (master_rows_nodup s)) as (fs' & H1 & H2 & H3 & H4).
  { intros p Hp. rewrite Hmap in Hp. apply filter_In in Hp. destruct Hp as [_ Hp].
    rewrite negb_true_iff, Nat.eqb_neq in Hp. destruct HI as (_ & _ & H). specialize (H p).
    destruct (files s p); [discriminate|lia]. }
  rewrite H1. eexists; split; [reflexivity|]. cbn [finalized master files]. split; [reflexivity|]. split; [reflexivity|].
  assert (Hz : forall p, negb (Nat.eqb (ngals s p) 0) = false -> stored s p = [] /\ files s p = None).
  { intros p Hp. rewrite negb_false_iff, Nat.eqb_eq in Hp. destruct HI as (_ & _ & H). specialize (H p).
    unfold stored. destruct (files s p) as [l|]; [|auto]. destruct H as (Ha & Hb & _). rewrite Hp in Ha.
    destruct l; [congruence|discriminate]. }
  split.
  - intros p. unfold stored. cbn [files]. specialize (H3 p). destruct (files s p), (fs' p); try contradiction; auto.
  - unfold all_stored, one_to. rewrite concat_map, map_map. unfold stored at 1. cbn [files].
    rewrite <- (concat_filter_nonempty (stored s) (fun p => negb (Nat.eqb (ngals s p) 0)))
      by (intros p _ Hp; apply Hz, Hp).
    rewrite Hmap in H4, H2.
    assert (Hc : List.concat (map (fun p => map gid (match fs' p with Some l => l | None => [] end)) (seq 0 (npix e)))
      = List.concat (map (fun p => match fs' p with Some l => map gid l | None => [] end)
           (filter (fun p => negb (Nat.eqb (ngals s p) 0)) (seq 0 (npix e))))).
    { clear H4 H1. revert H2. generalize (seq 0 (npix e)) as L. intros L.
      assert (Hg2 : forall p, In p L -> negb (Nat.eqb (ngals s p) 0) = false ->
                ~ In p (filter (fun p => negb (Nat.eqb (ngals s p) 0)) L)).
      { intros p _ Hp Hin. apply filter_In in Hin. destruct Hin; congruence. }
      intros H2.
      assert (Hn : forall p, In p L -> negb (Nat.eqb (ngals s p) 0) = false -> fs' p = None).
      { intros p Hp Hq. rewrite H2 by (apply Hg2; assumption). apply Hz; assumption. }
      clear H2 Hg2. induction L as [|p L IH]; cbn [map List.concat filter]; [reflexivity|].
      destruct (negb (Nat.eqb (ngals s p) 0)) eqn:Ep.
      - cbn [map List.concat]. rewrite IH by (intros; apply Hn; auto; right; assumption).
        destruct (fs' p); reflexivity.
      - rewrite (Hn p (or_introl eq_refl) Ep). cbn. apply IH. intros; apply Hn; auto; right; assumption. }
    rewrite Hc, H4. change (fun p => match files s p with Some l => l | None => [] end) with (stored s).
    rewrite <- seq_shift, map_map. apply map_ext. intros; lia.
Qed.
End M.

(** *** A directory that already holds pixel files *)
Section Existing.
Variable e : env.
Variable fs : nat -> option (list gal).

(** files of an earlier run are untouched, and a pixel with a positive counter has a file *)
Definition Kept (s : st) : Prop :=
  (forall p l, fs p = Some l -> files s p = Some l /\ ngals s p = 0) /\
  (forall p, ngals s p <> 0 -> files s p <> None).

Lemma write_pixels_kept gals pixs : forall s s' r, Kept s -> write_pixels e s gals pixs = (s', r) ->
  Kept s' /\ master s' = master s /\ finalized s' = finalized s /\ (r = Ok tt \/ r = Err RuntimeError) /\
  ((exists p l, In p pixs /\ fs p = Some l) -> r = Err RuntimeError).
Proof.
  induction pixs as [|p pixs IH]; intros s s' r HK H; cbn [write_pixels] in H.
  - injection H as <- <-. do 3 (split; [solve [exact HK | reflexivity]|]). split; [auto|]. intros (p & l & [] & _).
  - destruct HK as [K1 K2].
    destruct (files s p) as [old|] eqn:Ef; destruct (Nat.eqb_spec (ngals s p) 0) as [z|nz]; cbn [andb] in H.
    + injection H as <- <-. split; [split; assumption|]. auto.
    + apply IH in H.
      * destruct H as (A & B & C & D & E). do 4 (split; [solve [auto]|]).
        intros (q & l & [<-|Hq] & Hl); [|apply E; eauto]. apply K1 in Hl. lia.
      * split; intros q; cbn.
        -- intros l Hl. pose proof (K1 _ _ Hl) as [H1 H2]. unfold upd.
           destruct (Nat.eqb_spec q p) as [->|]; [lia|]. auto.
        -- unfold upd. destruct (Nat.eqb_spec q p); [intros _; discriminate|apply K2].
    + apply IH in H.
      * destruct H as (A & B & C & D & E). do 4 (split; [solve [auto]|]).
        intros (q & l & [<-|Hq] & Hl); [|apply E; eauto]. apply K1 in Hl. destruct Hl; congruence.
      * split; intros q; cbn.
        -- intros l Hl. pose proof (K1 _ _ Hl) as [H1 H2]. unfold upd.
           destruct (Nat.eqb_spec q p) as [->|]; [congruence|]. auto.
        -- unfold upd. destruct (Nat.eqb_spec q p); [intros _; discriminate|apply K2].
    + exfalso. exact (K2 p nz Ef).
Qed.

Lemma append_kept s c s' r : Kept s -> finalized s = false -> master s = None -> append_galaxies e s c = (s', r) ->
  Kept s' /\ finalized s' = false /\ master s' = None /\
  ((exists p l, p < npix e /\ fs p = Some l /\ belongs e p c <> []) -> r = Err RuntimeError).
Proof.
  intros HK Hf Hm H. unfold append_galaxies in H. rewrite Hf, Hm in H.
  destruct (negb (chunk_ok e c)).
  - injection H as <- <-. auto.
  - apply write_pixels_kept in H; [|exact HK]. destruct H as (A & B & C & D & E).
    split; [exact A|]. split; [congruence|]. split; [congruence|].
    intros (p & l & Hp & Hl & Hb). apply E. exists p, l. split; [|exact Hl].
    apply filter_In. split; [apply in_seq; lia|]. apply negb_true_iff, Nat.eqb_neq. intros Z. apply Hb.
    apply length_zero_iff_nil in Z. unfold belongs.
    assert (Q : forall l : list gal, filter (fun g => inmask e (gdat g) && Nat.eqb (pixof e (gdat g)) p) l =
                filter (fun g => Nat.eqb (pixof e (gdat g)) p) (filter (fun g => inmask e (gdat g)) l)).
    { clear. induction l as [|g l IH]; cbn; [reflexivity|]. destruct (inmask e (gdat g)); cbn; [|exact IH].
      destruct (Nat.eqb _ p); rewrite IH; reflexivity. }
    rewrite Q. exact Z.
Qed.

Lemma append_many_kept cs : forall s s' rs, Kept s -> finalized s = false -> master s = None -> append_many e s cs = (s', rs) ->
  Kept s' /\ forall k c p l, nth_error cs k = Some c -> p < npix e -> fs p = Some l -> belongs e p c <> [] ->
             nth_error rs k = Some (Err RuntimeError).
Proof.
  induction cs as [|c cs IH]; intros s s' rs HK Hf Hm H; cbn [append_many] in H.
  - injection H as <- <-. split; [exact HK|]. intros [|k] c p l; discriminate.
  - destruct (append_galaxies e s c) as [s1 r1] eqn:E1. destruct (append_many e s1 cs) as [s2 rs2] eqn:E2.
    injection H as <- <-. destruct (append_kept _ _ _ _ HK Hf Hm E1) as (A & B & C & D).
    destruct (IH _ _ _ A B C E2) as [F G]. split; [exact F|].
    intros [|k] c' p l Hc Hp Hl Hb; cbn in *; [|eapply G; eauto].
    injection Hc as <-. rewrite D; eauto.
Qed.
End Existing.

Lemma kept_new fs : Kept fs (new_maker fs).
Proof. split; cbn; [auto|]. intros p H; congruence. Qed.

Lemma finalize_master e s s2 r : finalize_catalog e s = (s2, r) -> exists tab, master s2 = Some tab.
Proof.
  unfold finalize_catalog. destruct (genids e).
  - destruct (gen_ids _ _ _); intros H; injection H as <- <-; cbn; eauto.
  - destruct (read_ids _ _) as [ids|]; [destruct (nodupZ ids)|]; intros H; injection H as <- <-; cbn; eauto.
Qed.
