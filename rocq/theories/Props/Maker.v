(** Properties C05, C06 (galaxy.py GalaxyCatalogMaker, serial mode). *)
From Coq Require Import Permutation.
From Verif.Base Require Import Py PyLemmas Fn.
From Verif.Model Require Import Maker.
From Verif.Spec Require Import Maker.
From Verif.Proofs Require Import Maker Galfile Ingest.

(** healpix returns a valid pixel number and the histogram lists each row once. *)
Definition env_ok (e : env) : Prop :=
  (forall d, pixof e d < npix e) /\ (forall l, Permutation (order e l) l).

(** C05.  After any history of appends on a fresh maker: the call on a chunk succeeds iff the
    chunk is acceptable, and each pixel file holds exactly the galaxies of the accepted chunks that are
    inside the mask and lie in that pixel, chunk after chunk; the counter is the file length. *)
Theorem C05_serial_conservation : forall e cs, env_ok e ->
  exists s', append_many e fresh cs =
     (s', map (fun c => if chunk_ok e c then Ok tt else Err RuntimeError) cs) /\
  forall p, stored s' p = List.concat (map (fun c => order e (belongs e p c)) (filter (chunk_ok e) cs)) /\
            Permutation (stored s' p) (belongs e p (List.concat (filter (chunk_ok e) cs))) /\
            ngals s' p = List.length (stored s' p) /\
            (files s' p = None <-> stored s' p = []).
Proof. intros e cs [H1 H2]. exact (serial_conservation e H1 H2 cs). Qed.
Print Assumptions C05_serial_conservation.

Theorem C05_chunk_ok : forall e c, chunk_ok e c = true <-> acceptable e c.
Proof. exact chunk_ok_iff. Qed.
Print Assumptions C05_chunk_ok.

(** C05.  The master table written by finalize lists each non-empty pixel once, with its row count. *)
Theorem C05_master_table : forall e cs s1 rs s2 r, env_ok e ->
  append_many e fresh cs = (s1, rs) -> finalize_catalog e s1 = (s2, r) ->
  exists tab, master s2 = Some tab /\ NoDup (map fst tab) /\
  forall p n, In (p, n) tab <-> p < npix e /\ exists l, files s1 p = Some l /\ n = List.length l.
Proof.
  intros e cs s1 rs s2 r [H1 H2] Ha Hf.
  destruct (append_many_inv e H1 H2 cs fresh [] (inv_fresh e)) as (s' & E & HI).
  rewrite E in Ha. injection Ha as <- <-.
  exists (master_rows e s'). split; [|split; [apply master_rows_nodup|intros; eapply master_rows_spec; eauto]].
  destruct (genids e) eqn:Eg.
  - destruct (finalize_gen e s' _ Eg HI) as (s3 & E3 & _ & Hm & _). rewrite E3 in Hf. congruence.
  - pose proof (finalize_nogen e s' _ Eg HI) as Hn. rewrite Hf in Hn. tauto.
Qed.
Print Assumptions C05_master_table.

(** C05.  A maker started in a directory that already holds pixel files never changes them: a chunk with a galaxy for such
    a pixel is refused, for every history of appends. *)
Theorem C05_existing_files : forall e fs cs s' rs,
  append_many e (new_maker fs) cs = (s', rs) ->
  (forall p l, fs p = Some l -> files s' p = Some l) /\ (forall k c p l, nth_error cs k = Some c -> p < npix e -> fs p = Some l -> belongs e p c <> [] ->
     nth_error rs k = Some (Err RuntimeError)).
Proof.
  intros e fs cs s' rs H. destruct (append_many_kept e fs cs _ _ _ (kept_new fs) eq_refl eq_refl H) as [[A _] B].
  split; [|exact B]. intros p l Hl. apply A, Hl.
Qed.
Print Assumptions C05_existing_files.

(** C05.  Once finalize_catalog has been called, with whatever result, nothing can be added any more. *)
Theorem C05_closed : forall e s s2 r c, finalize_catalog e s = (s2, r) ->
  append_galaxies e s2 c = (s2, Err RuntimeError) /\ split_galaxies e s2 c = (s2, Err RuntimeError).
Proof.
  intros e s s2 r c H. apply finalize_master in H. destruct H as [tab H].
  unfold append_galaxies, split_galaxies. rewrite H. destruct (finalized s2); auto.
Qed.
Print Assumptions C05_closed.

(** C06.  With generated ids, finalize succeeds, changes nothing but ids, and ids are 1..N. *)
Theorem C06_generated_ids : forall e cs s1 rs, env_ok e -> genids e = true ->
  append_many e fresh cs = (s1, rs) ->
  exists s2, finalize_catalog e s1 = (s2, Ok tt) /\
    (forall p, map gdat (stored s2 p) = map gdat (stored s1 p)) /\
    map gid (all_stored e s2) = one_to (List.length (all_stored e s1)).
Proof.
  intros e cs s1 rs [H1 H2] Hg Ha.
  destruct (append_many_inv e H1 H2 cs fresh [] (inv_fresh e)) as (s' & E & HI).
  rewrite E in Ha. injection Ha as <- <-.
  destruct (finalize_gen e s' _ Hg HI) as (s3 & E3 & _ & _ & Hd & Hi). exists s3. auto.
Qed.
Print Assumptions C06_generated_ids.

(** C06 (partial).  Without generation, finalize returns normally exactly if all ids are distinct and
    otherwise raises RuntimeError.  Missing: "leaves no master table" is false, see below. *)
Theorem C06_checked_ids_partial : forall e cs s1 rs s2 r, env_ok e -> genids e = false ->
  append_many e fresh cs = (s1, rs) -> finalize_catalog e s1 = (s2, r) ->
  files s2 = files s1 /\
  (r = Ok tt <-> NoDup (map gid (all_stored e s1))) /\ (r <> Ok tt -> r = Err RuntimeError).
Proof.
  intros e cs s1 rs s2 r [H1 H2] Hg Ha Hf.
  destruct (append_many_inv e H1 H2 cs fresh [] (inv_fresh e)) as (s' & E & HI).
  rewrite E in Ha. injection Ha as <- <-.
  pose proof (finalize_nogen e s' _ Hg HI) as Hn. rewrite Hf in Hn. tauto.
Qed.
Print Assumptions C06_checked_ids_partial.

Definition ex_env (gen : bool) : env :=
  mkE 2 (fun d => if (d <? 0)%Z then 0 else 1) (fun d => negb (d =? 99)%Z) (fun l => l) gen.
Lemma ex_env_ok gen : env_ok (ex_env gen).
Proof. split; [|intros; apply Permutation_refl]. intros d; cbn. destruct (d <? 0)%Z; lia. Qed.

(** Finding: a duplicated id makes finalize raise, but the master table is already on disk. *)
Theorem C06_master_left_behind_refuted : exists e cs s1 rs s2,
  env_ok e /\ append_many e fresh cs = (s1, rs) /\
  finalize_catalog e s1 = (s2, Err RuntimeError) /\ master s2 <> None.
Proof.
  exists (ex_env false), [[mkG 1 5 true]; [mkG 1 (-3) true]]. do 3 eexists.
  split; [apply ex_env_ok|]. split; [vm_compute; reflexivity|]. split; [vm_compute; reflexivity|discriminate].
Qed.
Print Assumptions C06_master_left_behind_refuted.

Example C05_ex : exists s1 rs,
  append_many (ex_env true) fresh [[mkG 7 5 true; mkG 7 (-3) true]; [mkG 1 99 true; mkG 2 8 true]; [mkG 3 4 false]] = (s1, rs)
  /\ rs = [Ok tt; Ok tt; Err RuntimeError]
  /\ stored s1 0 = [mkG 7 (-3) true] /\ stored s1 1 = [mkG 7 5 true; mkG 2 8 true]
  /\ map gid (all_stored (ex_env true) (fst (finalize_catalog (ex_env true) s1))) = [1; 2; 3]%Z.
Proof. do 2 eexists. vm_compute. repeat split; reflexivity. Qed.
Example C05_existing_example :
  let fs := fun p : nat => match p with 1 => Some [mkG 9 6 true] | _ => None end in
  let r := append_many (ex_env true) (new_maker fs) [[mkG 7 (-3) true]; [mkG 2 8 true]] in
  snd r = [Ok tt; Err RuntimeError] /\ files (fst r) 1 = fs 1 /\ stored (fst r) 0 = [mkG 7 (-3) true].
Proof. vm_compute. auto. Qed.
(** The whole catalog in one call: an acceptable catalog is stored and closed, every galaxy of the mask in the file of its pixel; of any
    other nothing is stored, and it is a RuntimeError. *)
Theorem C05_split : forall e c, env_ok e ->
  (acceptable e c -> exists s, split_galaxies e fresh c = (s, Ok tt) /\ finalized s = true /\
     forall p, Permutation (map gdat (stored s p)) (map gdat (belongs e p c)) /\ (genids e = false -> Permutation (stored s p) (belongs e p c))) /\
  (~ acceptable e c -> split_galaxies e fresh c = (fresh, Err RuntimeError)).
Proof.
  intros e c Ok_. split.
  - intros A. assert (Ac : chunk_ok e c = true) by (apply C05_chunk_ok, A).
    destruct (C05_serial_conservation e [c] Ok_) as (s1 & E & P). cbn [map filter] in E, P. rewrite Ac in E, P. cbn [map List.concat] in P.
    assert (P' : forall p, Permutation (stored s1 p) (belongs e p c)). { intros p. destruct (P p) as (_ & X & _). rewrite app_nil_r in X. exact X. }
    cbn [append_many] in E. destruct (append_galaxies e fresh c) as [s' r'] eqn:Ea. injection E as -> ->.
    assert (Em : append_many e fresh [c] = (s1, [Ok tt])) by (cbn [append_many]; rewrite Ea; reflexivity).
    unfold split_galaxies. cbn [finalized master fresh new_maker]. rewrite Ea. destruct (genids e) eqn:G.
    + destruct (C06_generated_ids e [c] s1 _ Ok_ G Em) as (s2 & F & D & _). exists s2. split; [exact F|]. split; [|intros p; split; [rewrite D; apply Permutation_map, P'|discriminate]].
      unfold finalize_catalog in F. rewrite G in F. destruct (gen_ids _ _ _); injection F as <-; [reflexivity|discriminate].
    + destruct (finalize_catalog e s1) as [s2 r] eqn:F. destruct (C06_checked_ids_partial e [c] s1 _ s2 r Ok_ G Em F) as (Fi & R & _).
      assert (N : NoDup (map gid (all_stored e s1))).
      { destruct A as [_ [A|A]]; [congruence|]. unfold all_stored.
        assert (Q : Permutation (List.concat (map (stored s1) (seq 0 (npix e)))) (filter (fun g => inmask e (gdat g)) c)).
        { rewrite (concat_perm (stored s1) (fun p => filter (fun g => Nat.eqb (pixof e (gdat g)) p) (filter (fun g => inmask e (gdat g)) c))).
          - apply (bins_perm (fun g => pixof e (gdat g))). intros x _. apply Ok_.
          - intros p _. rewrite (P' p). unfold belongs. rewrite Galfile.filter_filter. reflexivity. }
        apply (Permutation_map gid) in Q. apply (Permutation_NoDup (Permutation_sym Q)). clear -A. induction c as [|g c IH]; cbn; [constructor|].
        inversion A as [|? ? N A']; subst. destruct (inmask e (gdat g)); cbn; [constructor|]; auto. intros I. apply N. apply in_map_iff in I as (g' & <- & I). apply filter_In in I as [I _]. apply in_map, I. }
      apply R in N. subst r. exists s2. split; [reflexivity|]. split.
      * unfold finalize_catalog in F. rewrite G in F. destruct (read_ids _ _) as [ids|]; [destruct (nodupZ ids)|]; injection F as <-; [reflexivity|discriminate|discriminate].
      * intros p. assert (E : stored s2 p = stored s1 p) by (unfold stored; rewrite Fi; reflexivity). rewrite E. split; [apply Permutation_map, P'|intros _; apply P'].
  - intros N. assert (X : chunk_ok e c = false) by (destruct (chunk_ok e c) eqn:Y; [exfalso; apply N, C05_chunk_ok, Y|reflexivity]).
    unfold split_galaxies, append_galaxies. cbn [finalized master fresh new_maker]. rewrite X. reflexivity.
Qed.
Print Assumptions C05_split.
