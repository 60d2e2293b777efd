From Coq Require Import QArith.
From Verif.Base Require Import Py PyLemmas.
From Verif.Model Require Import FirstPass SpecSeeds.
From Verif.Spec Require Import SpecSeeds.
From Verif.Proofs Require Import FirstPass.
From Coq Require Import Lqa Lia List. Import ListNotations.
Local Open Scope nat_scope.

Lemma good_spec_iff zlo zhi e s : good_spec zlo zhi e s = true <-> reliable zlo zhi e s.
Proof.
  unfold good_spec, reliable. rewrite !andb_true_iff, !Qle_bool_iff, Qltb_iff. tauto.
Qed.

Lemma take_all {A} (l : list A) idx : (forall i, In i idx -> i < length l) -> exists l', np_take l idx = Ok l' /\ length l' = length idx /\
  forall k i, nth_error idx k = Some i -> nth_error l' k = nth_error l i.
Proof.
  induction idx as [|i idx IH]; intros H; cbn.
  - exists []. split; [reflexivity|]. split; [reflexivity|]. intros [|k] ? E; discriminate.
  - destruct (nth_error l i) as [x|] eqn:E.
    2:{ apply nth_error_None in E. specialize (H i (or_introl eq_refl)). lia. }
    destruct IH as (l' & -> & Hl & Hn); [intros; apply H; right; assumption|]. cbn. exists (x :: l').
    split; [reflexivity|]. split; [cbn; lia|]. intros [|k] j Ej; cbn in *; [injection Ej as <-; symmetry; exact E|apply Hn, Ej].
Qed.
Lemma where_in {A} (p : A -> bool) (l : list A) : forall i k, In k (where_from p i l) <-> exists j x, k = i + j /\ nth_error l j = Some x /\ p x = true.
Proof.
  induction l as [|x l IH]; intros i k; cbn.
  - split; [tauto|]. intros ([|j] & y & _ & E & _); discriminate.
  - assert (E : In k (where_from p (S i) l) <-> exists j y, k = i + S j /\ nth_error l j = Some y /\ p y = true).
    { rewrite IH. split; intros (j & y & H1 & H2 & H3); exists j, y; (split; [lia|split; assumption]). }
    destruct (p x) eqn:Ep; cbn; rewrite E; split.
    + intros [<-|(j & y & H1 & H2 & H3)]; [exists 0, x; split; [lia|split; [reflexivity|exact Ep]]|exists (S j), y; auto].
    + intros ([|j] & y & H1 & H2 & H3); [left; lia|right; exists j, y; auto].
    + intros (j & y & H1 & H2 & H3). exists (S j), y. auto.
    + intros ([|j] & y & H1 & H2 & H3); [cbn in H2; congruence|exists j, y; auto].
Qed.
Lemma combine_nth {A B} (a : list A) (b : list B) : forall k x y, nth_error (combine a b) k = Some (x, y) <-> nth_error a k = Some x /\ nth_error b k = Some y.
Proof.
  revert b. induction a as [|p a IH]; intros b k x y; cbn.
  - split; [destruct k; discriminate|intros [H _]; destruct k; discriminate].
  - destruct b as [|q b]; cbn; [split; [destruct k; discriminate|intros [_ H]; destruct k; discriminate]|].
    destruct k as [|k]; cbn; [|apply IH]. split; [intros [= <- <-]; auto|intros [[= <-] [= <-]]; reflexivity].
Qed.

(** the seeds, one for each pair whose galaxy is good *)
Lemma select_spec zlo zhi e hz near m specs gals : matches near m ->
  let sp := filter (good_spec zlo zhi e) specs in
  let pairs := m (map (fun s => (sp_ra s, sp_dec s)) sp) (map (fun g => (pg_ra g, pg_dec g)) gals) in
  exists seeds idx, select_seeds zlo zhi e hz m specs gals = Ok seeds /\ length seeds = length idx /\ NoDup idx /\
    (forall k, In k idx -> exists i j s g, nth_error pairs k = Some (i, j) /\ nth_error sp i = Some s /\ nth_error gals j = Some g /\ good_gal hz g = true) /\
    (forall n k i j s g, nth_error idx n = Some k -> nth_error pairs k = Some (i, j) -> nth_error sp i = Some s -> nth_error gals j = Some g ->
        nth_error seeds n = Some (seed_of hz s g)) /\
    (forall k i j g, nth_error pairs k = Some (i, j) -> nth_error gals j = Some g -> good_gal hz g = true -> In k idx).
Proof.
  intros Hm sp pairs. unfold select_seeds. fold sp. fold pairs.
  destruct (Hm (map (fun s => (sp_ra s, sp_dec s)) sp) (map (fun g => (pg_ra g, pg_dec g)) gals)) as (M1 & M2 & _). fold pairs in M1, M2.
  assert (Hp : forall i j, In (i, j) pairs -> i < length sp /\ j < length gals).
  { intros i j Hij. destruct (M1 i j Hij) as (p & q & E1 & E2 & _).
    apply nth_error_Some_lt in E1 || (assert (nth_error (map (fun s => (sp_ra s, sp_dec s)) sp) i <> None) as X by congruence; apply nth_error_Some in X; rewrite map_length in X).
    assert (nth_error (map (fun g => (pg_ra g, pg_dec g)) gals) j <> None) as Y by congruence. apply nth_error_Some in Y. rewrite map_length in Y.
    split; assumption. }
  destruct (take_all gals (map snd pairs)) as (g1 & -> & Lg & Ng).
  { intros j Hj. apply in_map_iff in Hj. destruct Hj as ([i j'] & <- & Hin). apply (Hp _ _ Hin). }
  cbn [bind].
  destruct (take_all sp (map fst pairs)) as (s1 & -> & Ls & Ns).
  { intros i Hi. apply in_map_iff in Hi. destruct Hi as ([i' j] & <- & Hin). apply (Hp _ _ Hin). }
  cbn [bind]. rewrite map_length in Lg, Ls.
  set (use := np_where (good_gal hz) g1).
  assert (Hu : forall k, In k use -> k < length g1).
  { intros k Hk. apply where_bound in Hk. exact Hk. }
  destruct (take_all g1 use Hu) as (g2 & -> & Lg2 & Ng2). cbn [bind].
  destruct (take_all s1 use) as (s2 & -> & Ls2 & Ns2); [intros k Hk; specialize (Hu k Hk); lia|]. cbn [bind].
  eexists. exists use. split; [reflexivity|]. split; [rewrite map_length, combine_length; lia|]. split.
  { unfold use, np_where. clear. generalize 0. induction g1 as [|x l IH]; intros i; cbn; [constructor|].
    destruct (good_gal hz x); [|apply IH]. constructor; [|apply IH]. intros H. apply where_in in H. destruct H as (j & y & H & _). lia. }
  split; [|split].
  - intros k Hk. pose proof Hk as Hk2. apply where_in in Hk. destruct Hk as (j0 & g & Ek & Eg & Gg). cbn in Ek. subst j0.
    specialize (Hu k Hk2). destruct (nth_error pairs k) as [[i j]|] eqn:Ep; [|apply nth_error_None in Ep; lia].
    pose proof (nth_error_In _ _ Ep) as Hin. destruct (Hp _ _ Hin) as [Hi Hj].
    assert (E1 : nth_error g1 k = nth_error gals j) by (apply Ng; rewrite nth_error_map, Ep; reflexivity).
    destruct (nth_error sp i) as [s|] eqn:Es; [|apply nth_error_None in Es; lia].
    exists i, j, s, g. repeat split; auto. rewrite <- E1. exact Eg.
  - intros n k i j s g En Ep Es Eg. rewrite nth_error_map.
    assert (E1 : nth_error g1 k = Some g) by (rewrite <- Eg; apply Ng; rewrite nth_error_map, Ep; reflexivity).
    assert (E2 : nth_error s1 k = Some s) by (rewrite <- Es; apply Ns; rewrite nth_error_map, Ep; reflexivity).
    assert (E3 : nth_error (combine s2 g2) n = Some (s, g)).
    { apply combine_nth. split; [rewrite (Ns2 n k En); exact E2|rewrite (Ng2 n k En); exact E1]. }
    rewrite E3. reflexivity.
  - intros k i j g Ep Eg Gg. apply where_in. exists k, g. split; [reflexivity|]. split; [|exact Gg].
    rewrite <- Eg. apply Ng. rewrite nth_error_map, Ep. reflexivity.
Qed.
Lemma good_gal_iff hz g : good_gal hz g = true <-> (hz = true -> (0 < pg_zred g)%Q) /\ (hz = false -> (0 < pg_refmag g)%Q).
Proof.
  unfold good_gal. destruct hz; rewrite Qltb_iff; split; intros H; try tauto; split; auto; discriminate.
Qed.
Lemma seed_of_is hz (near : Q * Q -> Q * Q -> Prop) s g : near (sp_ra s, sp_dec s) (pg_ra g, pg_dec g) -> good_gal hz g = true -> is_seed hz near (seed_of hz s g) s g.
Proof.
  intros H G. apply good_gal_iff in G. destruct G as [G1 G2]. unfold is_seed, seed_of. cbn.
  destruct hz; repeat split; auto; discriminate.
Qed.
