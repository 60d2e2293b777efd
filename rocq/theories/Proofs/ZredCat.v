From Coq Require Import Qround.
From Verif.Base Require Import Py PyLemmas.
From Verif.Model Require Import Chunks ZredCat.
From Verif.Spec Require Import ZredCat.
From Verif.Proofs Require Import Chunks.
From Coq Require Import Lia List. Import ListNotations.

Lemma Forall2_len {A B} (P : A -> B -> Prop) l1 l2 : Forall2 P l1 l2 -> length l1 = length l2.
Proof. induction 1; cbn; congruence. Qed.
Fixpoint consec (a : nat) (cs : list (nat * nat)) (b : nat) : Prop :=
  match cs with [] => a = b | (lo, hi) :: t => lo = a /\ lo < hi /\ consec hi t b end.

Lemma consec_le cs : forall a b, consec a cs b -> a <= b.
Proof. induction cs as [|[lo hi] t IH]; cbn; intros a b H; [lia|]. destruct H as (-> & L & H). apply IH in H. lia. Qed.

Lemma starts_consec n ngal : 0 < n -> forall m k, (k + m = (ngal + n - 1) / n) -> k * n <= ngal \/ m = 0 ->
  consec (Nat.min (k * n) ngal) (map (fun ind => (ind, Nat.min (ind + n) ngal)) (map (fun k => k * n) (seq k m))) ngal.
Proof.
  intros Hn. induction m as [|m IH]; intros k E L.
  - cbn. pose proof (Nat.div_mod (ngal + n - 1) n ltac:(lia)) as D. pose proof (Nat.mod_upper_bound (ngal + n - 1) n ltac:(lia)) as U. assert (k * n >= ngal) by nia. lia.
  - cbn [seq map consec]. pose proof (Nat.div_mod (ngal + n - 1) n ltac:(lia)) as D. pose proof (Nat.mod_upper_bound (ngal + n - 1) n ltac:(lia)) as U.
    assert (k * n < ngal) by nia. split; [lia|]. split; [lia|].
    replace (k * n + n) with (S k * n) by lia. apply IH; [lia|].
    destruct m; [right; reflexivity|left]. nia.
Qed.
Lemma chunks_consec ngal n cs : zred_chunks ngal n = Ok cs -> consec 0 cs ngal.
Proof.
  unfold zred_chunks. destruct (Nat.eqb_spec n 0); [discriminate|]. intros E. assert (X : cs = map (fun ind => (ind, Nat.min (ind + n) ngal)) (starts ngal n)) by congruence. subst cs.
  unfold starts. pose proof (starts_consec n ngal ltac:(lia) ((ngal + n - 1) / n) 0 eq_refl ltac:(left; lia)) as H. cbn [Nat.mul] in H. rewrite Nat.min_0_l in H. exact H.
Qed.

Section S.
Context {Row Val Samp Gen : Type} (Z : zcalc Row Val Samp Gen).
Implicit Types (rows rs : list Row).

Lemma chunk_rows_ok rs : (forall r, In r rs -> exists v, zc_row Z r = Ok v) -> forall g, exists l g', chunk_rows Z rs g = Ok (l, g').
Proof.
  induction rs as [|r t IH]; cbn; intros H g; [eexists; eexists; reflexivity|].
  destruct (H r (or_introl eq_refl)) as (v & ->). cbn [bind]. destruct (zc_samp Z r g) as [s g1].
  destruct (IH (fun x I => H x (or_intror I)) g1) as (l & g' & ->). cbn. eexists; eexists; reflexivity.
Qed.
Lemma chunk_rows_spec rs : forall g l g', chunk_rows Z rs g = Ok (l, g') ->
  rowwise (zc_row Z) rs l /\ map snd l = draws (zc_samp Z) rs g /\
  forall rs2, draws (zc_samp Z) (rs ++ rs2) g = draws (zc_samp Z) rs g ++ draws (zc_samp Z) rs2 g'.
Proof.
  induction rs as [|r t IH]; cbn; intros g l g' H.
  - assert (l = [] /\ g' = g) as [-> ->] by (split; congruence). repeat split; constructor.
  - destruct (zc_row Z r) as [v|e] eqn:Ev; [|discriminate]. cbn [bind] in H. destruct (zc_samp Z r g) as [s g1]. destruct (chunk_rows Z t g1) as [[l1 g2]|e] eqn:E1; [|discriminate].
    cbn in H. assert (l = (v, s) :: l1 /\ g' = g2) as [-> ->] by (split; congruence). destruct (IH _ _ _ E1) as (A & B & C). cbn. split; [constructor; [exact Ev|exact A]|]. split; [rewrite B; reflexivity|].
    intros rs2. rewrite C. reflexivity.
Qed.
Lemma chunk_rows_err rs : (exists r e, In r rs /\ zc_row Z r = Err e) -> forall g, exists e, chunk_rows Z rs g = Err e.
Proof.
  induction rs as [|r t IH]; intros (x & e & I & E) g; [destruct I|]. cbn. destruct (zc_row Z r) as [v|e1] eqn:Ev; [|eexists; reflexivity]. cbn [bind]. destruct (zc_samp Z r g) as [s g1].
  destruct I as [->|I]; [congruence|]. destruct (IH (ex_intro _ x (ex_intro _ e (conj I E))) g1) as (e2 & ->). cbn. eexists; reflexivity.
Qed.

Lemma rows_of_in lo hi rows r : In r (rows_of lo hi rows) -> In r rows.
Proof.
  unfold rows_of. intros H. assert (I : In r (skipn lo rows)) by (rewrite <- (firstn_skipn (hi - lo)); apply in_or_app; left; exact H).
  rewrite <- (firstn_skipn lo rows). apply in_or_app; right; exact I.
Qed.
Lemma rows_split rows a hi : a <= hi -> skipn a rows = rows_of a hi rows ++ skipn hi rows.
Proof.
  intros L. unfold rows_of. rewrite <- (firstn_skipn (hi - a) (skipn a rows)) at 1. f_equal.
  clear -L. revert a hi L. induction rows as [|r t IH]; intros a hi L; [rewrite !skipn_nil; reflexivity|]. destruct a as [|a]; [cbn [skipn]; f_equal; lia|]. destruct hi as [|hi]; [lia|]. cbn [skipn]. replace (S hi - S a) with (hi - a) by lia. apply IH. lia.
Qed.

Lemma work_ok rows sched cs : (forall r, In r rows -> exists v, zc_row Z r = Ok v) -> forall k st, exists rv, work Z rows sched k st cs = Ok rv.
Proof.
  intros H. induction cs as [|[lo hi] t IH]; intros k st; [eexists; reflexivity|]. cbn.
  destruct (chunk_rows_ok (rows_of lo hi rows) (fun r I => H r (rows_of_in _ _ _ _ I)) (st (sched k))) as (l & g' & ->). cbn [bind].
  destruct (IH (S k) (fun q => if Nat.eqb q (sched k) then snd (l, g') else st q)) as (rv & ->). eexists; reflexivity.
Qed.
Lemma work_err rows sched cs : forall b k st a, consec a cs b -> b = length rows -> (exists r e, In r (skipn a rows) /\ zc_row Z r = Err e) ->
  exists e, work Z rows sched k st cs = Err e.
Proof.
  induction cs as [|[lo hi] t IH]; intros b k st a H Hb (r & e & I & E).
  - cbn in H. subst. rewrite skipn_all2 in I by lia. destruct I.
  - cbn in H. destruct H as (-> & L & H). rewrite (rows_split rows a hi) in I by lia. apply in_app_or in I. cbn. destruct I as [I|I].
    + destruct (chunk_rows_err (rows_of a hi rows) (ex_intro _ r (ex_intro _ e (conj I E))) (st (sched k))) as (e1 & ->). eexists; reflexivity.
    + destruct (chunk_rows Z _ _) as [p|e1]; [|eexists; reflexivity]. cbn [bind]. destruct (IH b (S k) (fun q => if Nat.eqb q (sched k) then snd p else st q) hi H Hb (ex_intro _ r (ex_intro _ e (conj I E)))) as (e2 & ->). eexists; reflexivity.
Qed.
Lemma work_rows rows sched cs : forall b k st a rv, consec a cs b -> b = length rows -> work Z rows sched k st cs = Ok rv ->
  rowwise (zc_row Z) (skipn a rows) (concat (map snd rv)) /\ Forall2 (fun c x => fst x = c /\ length (snd x) = snd c - fst c) cs rv.
Proof.
  induction cs as [|[lo hi] t IH]; intros b k st a rv H Hb W.
  - cbn in *. assert (rv = []) by congruence. subst. rewrite skipn_all. split; constructor.
  - cbn in H. destruct H as (-> & L & H). cbn in W. destruct (chunk_rows Z _ _) as [[l g']|e] eqn:Ec; [|discriminate]. cbn [bind] in W. destruct (work Z rows sched (S k) _ t) as [r|e] eqn:Ew; [|discriminate]. cbn in W. assert (rv = ((a, hi), l) :: r) by congruence. subst rv.
    destruct (IH b _ _ hi r H Hb Ew) as [A B]. destruct (chunk_rows_spec _ _ _ _ Ec) as (C & _ & _). cbn [map concat snd]. rewrite (rows_split rows a hi) by lia. split; [apply Forall2_app; assumption|].
    constructor; [|exact B]. split; [reflexivity|]. cbn. apply consec_le in H. apply Forall2_len in C. rewrite <- C. unfold rows_of. rewrite firstn_length, skipn_length. lia.
Qed.
Lemma store_spec cs : forall b a rv done z0, consec a cs b -> Forall2 (fun c x => fst x = c /\ length (snd x) = snd c - fst c) cs rv -> length done = a ->
  store rv (done ++ repeat z0 (b - a)) = Ok (done ++ @concat (Val * Samp) (map snd rv)).
Proof.
  induction cs as [|[lo hi] t IH]; intros b a rv done z0 H F Hd.
  - inversion F; subst. cbn in *. subst. rewrite Nat.sub_diag. cbn. rewrite app_nil_r. reflexivity.
  - inversion F as [|c x cs' rv' [E1 E2] F']; subst c cs' rv. destruct x as [c v]. cbn in E1, E2. subst c. cbn in H. destruct H as (-> & L & H). pose proof (consec_le _ _ _ H) as L2. cbn [store].
    unfold put. rewrite app_length, repeat_length, Hd. replace (Nat.min hi (a + (b - a)) - a) with (hi - a) by lia. rewrite E2, Nat.eqb_refl. cbn [bind].
    rewrite firstn_app, Hd, Nat.sub_diag, firstn_O, app_nil_r, firstn_all2 by lia.
    replace (skipn (a + (hi - a)) (done ++ repeat z0 (b - a))) with (repeat z0 (b - hi)).
    + rewrite app_assoc. rewrite (IH b hi rv' (done ++ v) z0 H F') by (rewrite app_length; lia). cbn. rewrite <- app_assoc. reflexivity.
    + rewrite skipn_app, Hd. rewrite skipn_all2 by lia. cbn. replace (a + (hi - a) - a) with (hi - a) by lia. replace (b - a) with ((hi - a) + (b - hi)) by lia. rewrite repeat_app, skipn_app, repeat_length. rewrite skipn_all2 by (rewrite repeat_length; lia). rewrite Nat.sub_diag. reflexivity.
Qed.
Lemma work_one rows p cs : forall b k st a rv, consec a cs b -> b = length rows -> work Z rows (fun _ => p) k st cs = Ok rv ->
  map snd (concat (map snd rv)) = draws (zc_samp Z) (skipn a rows) (st p).
Proof.
  induction cs as [|[lo hi] t IH]; intros b k st a rv H Hb W.
  - cbn in *. assert (rv = []) by congruence. subst. rewrite skipn_all. reflexivity.
  - cbn in H. destruct H as (-> & L & H). cbn in W. destruct (chunk_rows Z _ _) as [[l g']|e] eqn:Ec; [|discriminate]. cbn [bind] in W. destruct (work Z rows _ (S k) _ t) as [r|e] eqn:Ew; [|discriminate]. cbn in W. assert (rv = ((a, hi), l) :: r) by congruence. subst rv.
    pose proof (IH b _ _ hi r H Hb Ew) as A. cbn in A. rewrite Nat.eqb_refl in A. destruct (chunk_rows_spec _ _ _ _ Ec) as (_ & B & C). cbn [map concat snd]. rewrite map_app, A, B. rewrite (rows_split rows a hi) by lia. symmetry. apply C.
Qed.
Lemma work_first rows sched cs : forall b k st a rv j lo hi, consec a cs b -> b = length rows -> work Z rows sched k st cs = Ok rv ->
  nth_error cs j = Some (lo, hi) -> (forall i, i < j -> sched (k + i) <> sched (k + j)) ->
  exists r, nth_error rows lo = Some r /\ option_map snd (nth_error (concat (map snd rv)) (lo - a)) = Some (fst (zc_samp Z r (st (sched (k + j))))) /\ a <= lo.
Proof.
  induction cs as [|[l0 h0] t IH]; intros b k st a rv j lo hi H Hb W N D; [destruct j; discriminate|].
  cbn in H. destruct H as (-> & L & H). cbn in W. destruct (chunk_rows Z _ _) as [[l g']|e] eqn:Ec; [|discriminate]. cbn [bind] in W. destruct (work Z rows sched (S k) _ t) as [r|e] eqn:Ew; [|discriminate]. cbn in W. assert (rv = ((a, h0), l) :: r) by congruence. subst rv.
  destruct (chunk_rows_spec _ _ _ _ Ec) as (A & B & _). pose proof (consec_le _ _ _ H) as L2. assert (Ll : length l = h0 - a) by (apply Forall2_len in A; rewrite <- A; unfold rows_of; rewrite firstn_length, skipn_length; lia).
  destruct j as [|j].
  - cbn in N. assert (a = lo /\ h0 = hi) as [-> ->] by (split; congruence). rewrite Nat.add_0_r, Nat.sub_diag. cbn [map concat snd].
    assert (X : exists r0 t0, rows_of lo hi rows = r0 :: t0 /\ nth_error rows lo = Some r0).
    { unfold rows_of. assert (Y : lo < length rows) by lia. destruct (nth_error rows lo) as [r0|] eqn:En; [|apply nth_error_None in En; lia]. exists r0. apply nth_error_split in En. destruct En as (x & y & -> & <-). rewrite skipn_app, skipn_all, Nat.sub_diag. cbn. destruct (hi - length x) eqn:Ed; [lia|]. eexists. split; reflexivity. }
    destruct X as (r0 & t0 & X1 & X2). exists r0. split; [exact X2|]. split; [|lia]. rewrite X1 in B. cbn in B. destruct l as [|[v s] l]; [discriminate B|]. cbn in B |- *. congruence.
  - cbn in N. destruct (IH b (S k) _ h0 r j lo hi H Hb Ew N) as (r0 & R1 & R2 & R3).
    { intros i Li. specialize (D (S i) ltac:(lia)). rewrite !Nat.add_succ_r in D. exact D. }
    exists r0. split; [exact R1|]. split; [|lia]. cbn [map concat snd]. rewrite nth_error_app2 by lia. rewrite Ll. replace (lo - a - (h0 - a)) with (lo - h0) by lia. rewrite R2. cbn [fst snd]. destruct (Nat.eqb_spec (sched (S k + j)) (sched k)) as [E|E].
    + exfalso. specialize (D 0 ltac:(lia)). rewrite Nat.add_0_r, Nat.add_succ_r in D. cbn in E. congruence.
    + replace (k + S j) with (S k + j) by lia. reflexivity.
Qed.

Definition cs_of (rows : list Row) np nproc mx := match np with None => zred_run_chunks (length rows) nproc mx | Some n => zred_chunks (length rows) n end.
Lemma cs_ok rows np nproc mx : usable np (length rows) nproc mx -> exists cs, cs_of rows np nproc mx = Ok cs.
Proof.
  unfold usable, cs_of. destruct np as [n|]; [intros H; destruct (zred_chunks_ok (length rows) n H) as (cs & E & _); exists cs; exact E|].
  intros [[H1 H2] H3]. destruct (zred_run_ok (length rows) nproc mx H1 H3 H2) as (cs & E & _). exists cs; exact E.
Qed.
Lemma cs_consec rows np nproc mx cs : cs_of rows np nproc mx = Ok cs -> consec 0 cs (length rows).
Proof. unfold cs_of. destruct np as [n|]; apply chunks_consec. Qed.
Lemma run_spec rows np nproc mx sched g0 z0 out : run_catalog Z rows np nproc mx sched g0 z0 = Ok out ->
  exists cs rv, cs_of rows np nproc mx = Ok cs /\ work Z rows sched 0 (fun _ => g0) cs = Ok rv /\ out = concat (map snd rv) /\ consec 0 cs (length rows).
Proof.
  unfold run_catalog. fold (cs_of rows np nproc mx). destruct (cs_of rows np nproc mx) as [cs|e] eqn:Ec; [|discriminate]. cbn [bind]. destruct (work _ _ _ _ _ _) as [rv|e] eqn:Ew; [|discriminate]. cbn [bind].
  pose proof (cs_consec _ _ _ _ _ Ec) as C. destruct (work_rows rows sched cs _ _ _ _ rv C eq_refl Ew) as [_ F]. pose proof (store_spec cs _ _ rv [] z0 C F eq_refl) as S. cbn in S. rewrite Nat.sub_0_r in S. rewrite S. intros E. exists cs, rv. split; [reflexivity|]. split; [exact Ew|]. split; [congruence|exact C].
Qed.
Lemma run_ok rows np nproc mx sched g0 z0 : usable np (length rows) nproc mx -> (forall r, In r rows -> exists v, zc_row Z r = Ok v) ->
  exists out, run_catalog Z rows np nproc mx sched g0 z0 = Ok out.
Proof.
  intros U H. unfold run_catalog. fold (cs_of rows np nproc mx). destruct (cs_ok rows np nproc mx U) as (cs & Ec). rewrite Ec. cbn [bind]. destruct (work_ok rows sched cs H 0 (fun _ => g0)) as (rv & Ew). rewrite Ew. cbn [bind].
  pose proof (cs_consec _ _ _ _ _ Ec) as C. destruct (work_rows rows sched cs _ _ _ _ rv C eq_refl Ew) as [_ F]. pose proof (store_spec cs _ _ rv [] z0 C F eq_refl) as S. cbn in S. rewrite Nat.sub_0_r in S. rewrite S. eexists; reflexivity.
Qed.
End S.
