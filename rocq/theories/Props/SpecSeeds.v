(** Property C89 (calibration/selectspecseeds.py). *)
From Coq Require Import QArith.
From Verif.Base Require Import Py PyLemmas.
From Verif.Model Require Import FirstPass SpecSeeds.
From Verif.Spec Require Import FirstPass SpecSeeds.
From Verif.Proofs Require Import FirstPass SpecSeeds.
From Verif.Props Require Import FirstPass.
From Coq Require Import Lqa Lia List. Import ListNotations.
Local Open Scope nat_scope.

(** C89.  The seeds come from different reliable spectra, and each has the redshift of its own spectrum and the values
    of a galaxy at its position. *)
Theorem C89_seeds : forall zlo zhi e hz near m specs gals, matches near m ->
  exists seeds sp src, select_seeds zlo zhi e hz m specs gals = Ok seeds /\
    keeps (reliable zlo zhi e) specs sp /\ NoDup src /\ length src = length seeds /\
    (forall n x, nth_error seeds n = Some x -> exists i s g, nth_error src n = Some i /\ nth_error sp i = Some s /\ In g gals /\ is_seed hz near x s g).
Proof.
  intros zlo zhi e hz near m specs gals Hm.
  destruct (select_spec zlo zhi e hz near m specs gals Hm) as (seeds & idx & E & Hl & Hnd & Hin & Hval & _).
  set (sp := filter (good_spec zlo zhi e) specs) in *.
  set (pairs := m (map (fun s => (sp_ra s, sp_dec s)) sp) (map (fun g => (pg_ra g, pg_dec g)) gals)) in *.
  destruct (Hm (map (fun s => (sp_ra s, sp_dec s)) sp) (map (fun g => (pg_ra g, pg_dec g)) gals)) as (M1 & M2 & _). fold pairs in M1, M2.
  exists seeds, sp, (np_sel (map fst pairs) idx). split; [exact E|]. split; [apply keeps_filter; intros; apply good_spec_iff|].
  assert (Hb : forall k, In k idx -> k < length (map fst pairs)).
  { intros k Hk. destruct (Hin k Hk) as (i & j & s & g & Ep & _). rewrite map_length. apply nth_error_Some. congruence. }
  assert (Hsel : forall idx, (forall k, In k idx -> k < length (map fst pairs)) ->
    length (np_sel (map fst pairs) idx) = length idx /\ forall n k, nth_error idx n = Some k -> nth_error (np_sel (map fst pairs) idx) n = nth_error (map fst pairs) k).
  { clear. induction idx as [|k idx IH]; intros H; cbn; [split; [reflexivity|intros [|n] ? ?; discriminate]|].
    destruct (nth_error (map fst pairs) k) as [x|] eqn:Ek; [|apply nth_error_None in Ek; specialize (H k (or_introl eq_refl)); lia].
    destruct IH as [IH1 IH2]; [intros; apply H; right; assumption|]. split; [cbn; lia|].
    intros [|n] k' E; cbn in *; [injection E as <-; symmetry; exact Ek|apply IH2, E]. }
  destruct (Hsel idx Hb) as [S1 S2].
  split; [|split; [lia|]].
  - apply NoDup_nth_error. intros a b Ha Hab. rewrite S1 in Ha.
    destruct (nth_error idx a) as [ka|] eqn:Ea; [|apply nth_error_None in Ea; lia].
    assert (Hb2 : b < length idx).
    { rewrite <- S1. apply nth_error_Some. rewrite <- Hab, (S2 a ka Ea). apply nth_error_Some, Hb, (nth_error_In _ _ Ea). }
    destruct (nth_error idx b) as [kb|] eqn:Eb; [|apply nth_error_None in Eb; lia].
    rewrite (S2 a ka Ea), (S2 b kb Eb) in Hab.
    assert (ka = kb). { rewrite NoDup_nth_error in M2. apply M2; [apply Hb, (nth_error_In _ _ Ea)|exact Hab]. }
    subst kb. rewrite NoDup_nth_error in Hnd. apply Hnd; [exact Ha|congruence].
  - intros n x Hx. assert (Hn : n < length idx) by (rewrite <- Hl; apply nth_error_Some; congruence).
    destruct (nth_error idx n) as [k|] eqn:En; [|apply nth_error_None in En; lia].
    destruct (Hin k (nth_error_In _ _ En)) as (i & j & s & g & Ep & Es & Eg & Gg).
    rewrite (Hval n k i j s g En Ep Es Eg) in Hx. injection Hx as <-.
    exists i, s, g. split; [rewrite (S2 n k En), nth_error_map, Ep; reflexivity|]. split; [exact Es|]. split; [exact (nth_error_In _ _ Eg)|].
    apply seed_of_is; [|exact Gg].
    destruct (M1 i j (nth_error_In _ _ Ep)) as (p & q & P1 & P2 & Hnear). rewrite nth_error_map, Es in P1. rewrite nth_error_map, Eg in P2.
    injection P1 as <-. injection P2 as <-. exact Hnear.
Qed.
Print Assumptions C89_seeds.

(** C89.  No usable spectrum is lost: a reliable one that has a galaxy near, all such galaxies being usable, is the
    source of a seed. *)
Theorem C89_complete : forall zlo zhi e hz near m specs gals s g, matches near m ->
  In s specs -> reliable zlo zhi e s -> In g gals -> near (sp_ra s, sp_dec s) (pg_ra g, pg_dec g) ->
  (forall g', In g' gals -> near (sp_ra s, sp_dec s) (pg_ra g', pg_dec g') ->
     (hz = true -> (0 < pg_zred g')%Q) /\ (hz = false -> (0 < pg_refmag g')%Q)) ->
  exists seeds x g', select_seeds zlo zhi e hz m specs gals = Ok seeds /\ In x seeds /\ In g' gals /\ is_seed hz near x s g'.
Proof.
  intros zlo zhi e hz near m specs gals s g Hm Hs Hr Hg Hn Hall.
  destruct (select_spec zlo zhi e hz near m specs gals Hm) as (seeds & idx & E & Hl & Hnd & Hin & Hval & Hcomp).
  set (sp := filter (good_spec zlo zhi e) specs) in *.
  set (pairs := m (map (fun s => (sp_ra s, sp_dec s)) sp) (map (fun g => (pg_ra g, pg_dec g)) gals)) in *.
  destruct (Hm (map (fun s => (sp_ra s, sp_dec s)) sp) (map (fun g => (pg_ra g, pg_dec g)) gals)) as (M1 & _ & M3). fold pairs in M1, M3.
  assert (Hsp : In s sp) by (apply filter_In; split; [exact Hs|apply good_spec_iff, Hr]).
  destruct (In_nth_error _ _ Hsp) as [i Ei].
  destruct (M3 i (sp_ra s, sp_dec s) (pg_ra g, pg_dec g)) as [j Hij].
  { rewrite nth_error_map, Ei. reflexivity. } { apply (in_map (fun g => (pg_ra g, pg_dec g))), Hg. } { exact Hn. }
  destruct (M1 i j Hij) as (p & q & P1 & P2 & Hnear). rewrite nth_error_map, Ei in P1. injection P1 as <-.
  rewrite nth_error_map in P2. destruct (nth_error gals j) as [g'|] eqn:Eg; [|discriminate]. injection P2 as <-.
  destruct (In_nth_error _ _ Hij) as [k Ek].
  assert (Gg : good_gal hz g' = true) by (apply good_gal_iff, Hall; [exact (nth_error_In _ _ Eg)|exact Hnear]).
  pose proof (Hcomp k i j g' Ek Eg Gg) as Hk. destruct (In_nth_error _ _ Hk) as [n En].
  exists seeds, (seed_of hz s g'), g'. split; [exact E|]. split; [apply (nth_error_In _ n), (Hval n k i j s g' En Ek Ei Eg)|].
  split; [exact (nth_error_In _ _ Eg)|]. apply seed_of_is; assumption.
Qed.
Print Assumptions C89_complete.

(** an example matching: the same position *)
Definition Qpos_eqb (p q : Q * Q) : bool := Qeq_bool (fst p) (fst q) && Qeq_bool (snd p) (snd q).
Definition same_place (p q : Q * Q) : Prop := (fst p == fst q)%Q /\ (snd p == snd q)%Q.
Fixpoint first_at (j : nat) (p : Q * Q) (b : list (Q * Q)) : option nat :=
  match b with [] => None | q :: t => if Qpos_eqb p q then Some j else first_at (S j) p t end.
Fixpoint match_at (i : nat) (a b : list (Q * Q)) : list (nat * nat) :=
  match a with [] => [] | p :: t => match first_at 0 p b with Some j => (i, j) :: match_at (S i) t b | None => match_at (S i) t b end end.
Lemma Qpos_eqb_iff p q : Qpos_eqb p q = true <-> same_place p q.
Proof. unfold Qpos_eqb, same_place. rewrite andb_true_iff, !Qeq_bool_iff. tauto. Qed.
Lemma first_at_some b : forall j p k, first_at j p b = Some k -> exists q, j <= k /\ nth_error b (k - j) = Some q /\ same_place p q.
Proof.
  induction b as [|q b IH]; intros j p k; cbn; [discriminate|]. destruct (Qpos_eqb p q) eqn:E.
  - intros [= <-]. exists q. rewrite Nat.sub_diag. split; [lia|]. split; [reflexivity|apply Qpos_eqb_iff, E].
  - intros H. destruct (IH _ _ _ H) as (q' & h1 & h2 & h3). exists q'. split; [lia|]. replace (k - j) with (S (k - S j)) by lia. auto.
Qed.
Lemma first_at_in b : forall j p q, In q b -> same_place p q -> first_at j p b <> None.
Proof.
  induction b as [|q' b IH]; intros j p q; cbn; [tauto|]. intros [->|H] Hs.
  - apply Qpos_eqb_iff in Hs. rewrite Hs. discriminate.
  - destruct (Qpos_eqb p q'); [discriminate|]. apply (IH _ _ q); assumption.
Qed.
Lemma match_at_ge a b : forall i x, In x (map fst (match_at i a b)) -> i <= x.
Proof.
  induction a as [|p a IH]; intros i x; cbn; [tauto|]. destruct (first_at 0 p b); cbn; [intros [<-|H]; [lia|]|intros H]; apply IH in H; lia.
Qed.
Lemma match_at_matches : matches same_place (match_at 0).
Proof.
  intros a b.
  assert (G : forall a i0,
    (forall i j, In (i, j) (match_at i0 a b) -> exists p q, i0 <= i /\ nth_error a (i - i0) = Some p /\ nth_error b j = Some q /\ same_place p q) /\
    NoDup (map fst (match_at i0 a b)) /\
    (forall i p q, nth_error a i = Some p -> In q b -> same_place p q -> exists j, In (i0 + i, j) (match_at i0 a b))).
  { clear a. induction a as [|p a IH]; intros i0; cbn.
    - split; [tauto|]. split; [constructor|]. intros [|i] ? ? ?; discriminate.
    - destruct (IH (S i0)) as (G1 & G2 & G3). destruct (first_at 0 p b) as [k|] eqn:E.
      + destruct (first_at_some _ _ _ _ E) as (q & _ & Hk & Hs). rewrite Nat.sub_0_r in Hk. split; [|split].
        * intros i j [[= <- <-]|H]; [exists p, q; rewrite Nat.sub_diag; auto|]. destruct (G1 i j H) as (p' & q' & h1 & h2 & h3).
          exists p', q'. split; [lia|]. replace (i - i0) with (S (i - S i0)) by lia. auto.
        * cbn. constructor; [|exact G2]. intros H. apply match_at_ge in H. lia.
        * intros [|i] p' q' H1 H2 H3; cbn in H1; [injection H1 as <-; exists k; left; f_equal; lia|].
          destruct (G3 i p' q' H1 H2 H3) as [j Hj]. exists j. right. replace (i0 + S i) with (S i0 + i) by lia. exact Hj.
      + split; [|split; [exact G2|]].
        * intros i j H. destruct (G1 i j H) as (p' & q' & h1 & h2 & h3). exists p', q'. split; [lia|]. replace (i - i0) with (S (i - S i0)) by lia. auto.
        * intros [|i] p' q' H1 H2 H3; cbn in H1; [injection H1 as <-; destruct (first_at_in b 0 p q' H2 H3 E)|].
          destruct (G3 i p' q' H1 H2 H3) as [j Hj]. exists j. replace (i0 + S i) with (S i0 + i) by lia. exact Hj. }
  destruct (G a 0) as (G1 & G2 & G3). split; [|split; [exact G2|]].
  - intros i j H. destruct (G1 i j H) as (p & q & _ & h2 & h3 & h4). exists p, q. rewrite Nat.sub_0_r in h2. auto.
  - intros i p q H1 H2 H3. destruct (G3 i p q H1 H2 H3) as [j Hj]. exists j. exact Hj.
Qed.

(** Finding: a galaxy that two spectra match is seeded twice, each time with another spectroscopic redshift. *)
Theorem C89_duplicates_refuted : exists zlo zhi e m specs g x y, matches same_place m /\
  select_seeds zlo zhi e true m specs [g] = Ok [x; y] /\ sd_ra x = sd_ra y /\ sd_dec x = sd_dec y /\ ~ (sd_zspec x == sd_zspec y)%Q.
Proof.
  exists (1#20)%Q, (3#5)%Q, (1#100)%Q, (match_at 0), [mkSpec 10 1 (1#5) (1#1000); mkSpec 10 1 (1#2) (1#1000)], (mkPG 10 1 0 18 0 (1#5) (1#50) 2).
  eexists. eexists. split; [exact match_at_matches|]. split; [vm_compute; reflexivity|]. split; [reflexivity|]. split; [reflexivity|]. cbn. intros H. discriminate.
Qed.
Print Assumptions C89_duplicates_refuted.

(** Finding: the seeds selected before photometric redshifts exist have -1 in their place, and a first pass that is
    given them, in any mode, finds no usable seed. *)
Theorem C89_unusable_refuted : forall zlo zhi e near m specs gals seeds f mstar dm inmask zreds galaxies, matches near m ->
  select_seeds zlo zhi e false m specs gals = Ok seeds -> (0 <= fc_zlo f)%Q ->
  more_setup f mstar dm inmask zreds (Some seeds) galaxies = Ok None.
Proof.
  intros zlo zhi e near m specs gals seeds f mstar dm inmask zreds galaxies Hm E H0.
  destruct (C89_seeds zlo zhi e false near m specs gals Hm) as (seeds' & sp & src & E' & _ & _ & _ & H). rewrite E in E'. injection E' as <-.
  apply C83_spec_unset_refuted; [exact H0|]. intros s Hs. destruct (In_nth_error _ _ Hs) as [n Hn].
  destruct (H n s Hn) as (i & s' & g & _ & _ & _ & X). destruct X as (_ & _ & _ & _ & _ & _ & _ & _ & X). rewrite (proj1 (X eq_refl)). reflexivity.
Qed.
Print Assumptions C89_unusable_refuted.

(** a case that meets the hypotheses *)
Example C89_ex : exists x, select_seeds (1#20) (3#5) (1#100) true (match_at 0)
  [mkSpec 10 1 (7#10) (1#1000); mkSpec 11 1 (1#2) (1#1000); mkSpec 12 1 (1#2) (1#1000)]
  [mkPG 12 1 0 18 0 (-1) (-1) 2; mkPG 11 1 0 18 0 (2#5) (1#50) 2; mkPG 10 1 0 18 0 (2#5) (1#50) 2] = Ok [x] /\ sd_ra x = 11%Q /\ sd_zspec x = (1#2)%Q.
Proof. eexists. split; [vm_compute; reflexivity|]. split; reflexivity. Qed.
