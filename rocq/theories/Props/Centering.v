(** C25-C28, C64: cluster centering. *)
From Coq Require Import QArith Qabs Lqa.
From Verif.Base Require Import Py PyLemmas Sort.
From Verif.Model Require Import Centering.
From Verif.Spec Require Import Centering.
From Verif.Proofs Require Import Centering.
Local Open Scope nat_scope.

(** A concrete list of neighbours for the examples: two candidates, a galaxy beyond the radius and one failing a cut. *)
Definition demo : list wn :=
  [ mkWN (1#10) true 1 1 (1#2) 1; mkWN 2 true 1 1 0 1; mkWN (2#10) true 1 2 (1#2) 1; mkWN (1#10) false 1 1 0 1 ].

(** ** C25 *)
(** Whenever a center is found p_cen is a distribution and q_cen lies in [0,1]. Missing: the reported q_miss (see the refutation). *)
Theorem C25_distribution_partial : forall asort maxcen lam sc rlam l o, argsort_spec asort ->
  wcen_find asort maxcen lam sc rlam l = Ok o -> wo_ngood o <> 0 ->
  in_unit (wo_pcen o) /\ (Qsum (wo_pcen o) == 1)%Q /\ in_unit (wo_qcen o).
Proof. intros. destruct (wcen_dist asort maxcen lam sc rlam l o) as (A & B & C & _); auto. Qed.
Print Assumptions C25_distribution_partial.
(** With candidates found, q_cen never sums to 1 and the reported q_miss is 0, so together they fall short of 1. *)
Theorem C25_qmiss_refuted : forall asort maxcen lam sc rlam l o, argsort_spec asort ->
  wcen_find asort maxcen lam sc rlam l = Ok o -> wo_ngood o <> 0 -> (Qsum (wo_qcen o) + wo_qmiss o < 1)%Q.
Proof. intros. destruct (wcen_dist asort maxcen lam sc rlam l o) as (_ & _ & _ & [_ D] & E); auto. rewrite E. lra. Qed.
Print Assumptions C25_qmiss_refuted.
(** With no candidate of positive probability, q_miss is 1 and the q_cen sum to 0. *)
Theorem C25_none_good : forall asort maxcen lam sc rlam l o, argsort_spec asort ->
  wcen_find asort maxcen lam sc rlam l = Ok o -> wo_ngood o = 0 -> (Qsum (wo_qcen o) == 0)%Q /\ (wo_qmiss o == 1)%Q.
Proof.
  intros asort maxcen lam sc rlam l o HA H Hg. destruct (wcen_cases _ _ _ _ _ _ _ HA H) as [[ps W]|(_ & _ & Hq & Hm & _)].
  - exfalso. destruct W. rewrite wp_ngood in Hg. destruct ps; [congruence|discriminate].
  - rewrite Hq, Hm. split; reflexivity.
Qed.
Print Assumptions C25_none_good.
(** For each candidate with a satellite or background density the three probabilities sum to 1. *)
Theorem C25_three_partial : forall asort maxcen lam sc rlam l o k i n, argsort_spec asort ->
  wcen_find asort maxcen lam sc rlam l = Ok o -> nth_error (wo_index o) k = Some i -> nth_error l i = Some n ->
  ~ ((lam - 1) * floor10 (w_usat n) + w_bkg n == 0)%Q ->
  exists pc pf ps, nth_error (wo_pcen o) k = Some pc /\ nth_error (wo_pfg o) k = Some pf /\ nth_error (wo_psat o) k = Some ps /\
    (pc + pf + ps == 1)%Q.
Proof.
  intros asort maxcen lam sc rlam l o k i n HA H Hk Hn Hd.
  destruct (wcen_triple asort maxcen lam sc rlam l o k i n) as (a & b & c & A & B & C & D & _); auto. exists a, b, c. auto.
Qed.
Print Assumptions C25_three_partial.
(** Without either density the satellite and foreground probabilities are both 0, whatever p_cen is. *)
Theorem C25_three_refuted : exists asort maxcen lam sc rlam l o pc pf ps, argsort_spec asort /\
  wcen_find asort maxcen lam sc rlam l = Ok o /\ wo_ngood o <> 0 /\
  nth_error (wo_pcen o) 0 = Some pc /\ nth_error (wo_pfg o) 0 = Some pf /\ nth_error (wo_psat o) 0 = Some ps /\
  (pc + pf + ps < 1)%Q.
Proof.
  exists argsort, 5, 2%Q, 1%Q, 1%Q, [mkWN (1#10) true (1#2) 1 0 0; mkWN (1#10) true (1#2) 1 0 0].
  eexists _, _, _, _. split; [apply argsort_ok|]. split; [vm_compute; reflexivity|]. split; [discriminate|].
  do 3 (split; [reflexivity|]). reflexivity.
Qed.
Print Assumptions C25_three_refuted.
Example C25_hyps : exists o, wcen_find argsort 5 20 1 1 demo = Ok o /\ wo_ngood o = 2 /\ wo_index o = [2; 0].
Proof. eexists. split; [vm_compute; reflexivity|]. split; reflexivity. Qed.

(** ** C26 *)
Theorem C26_list : forall asort maxcen lam sc rlam l o, argsort_spec asort -> 0 < maxcen ->
  wcen_find asort maxcen lam sc rlam l = Ok o ->
  1 <= List.length (wo_index o) <= maxcen /\ List.length (wo_pcen o) = List.length (wo_index o) /\ NoDup (wo_index o) /\
  descending (wo_pcen o) /\ nth_error (wo_index o) 0 = Some (wo_maxind o) /\
  (forall i, In i (wo_index o) -> exists n, nth_error l i = Some n /\ may_be_center rlam n).
Proof. exact wcen_list. Qed.
Print Assumptions C26_list.
(** No galaxy left out of the list has a larger probability of being central than one on it. *)
Theorem C26_most_likely_kept : forall asort maxcen lam sc rlam l o i n j m, argsort_spec asort ->
  wcen_find asort maxcen lam sc rlam l = Ok o ->
  In i (wo_index o) -> nth_error l i = Some n -> nth_error l j = Some m -> may_be_center rlam m -> ~ In j (wo_index o) ->
  wo_ngood o <> 0 -> (pcen_basic lam sc m <= pcen_basic lam sc n)%Q.
Proof. exact wcen_best. Qed.
Print Assumptions C26_most_likely_kept.
(** When some galaxy passes the cuts an answer is given. *)
Theorem C26_answers : forall asort maxcen lam sc rlam l, argsort_spec asort -> 0 < maxcen ->
  (exists i n, nth_error l i = Some n /\ may_be_center rlam n) -> exists o, wcen_find asort maxcen lam sc rlam l = Ok o.
Proof. exact wcen_total. Qed.
Print Assumptions C26_answers.
(** With no place for a center on the list, a likely center is an IndexError. *)
Theorem C26_no_place : forall asort lam sc rlam l i n, argsort_spec asort -> nth_error l i = Some n -> may_be_center rlam n -> (0 < pcen_basic lam sc n)%Q ->
  wcen_find asort 0 lam sc rlam l = Err IndexError.
Proof.
  intros asort lam sc rlam l i n HA Hi [Hr Hc] P. unfold wcen_find.
  pose proof (np_where_spec (fun n => Qlt_bool (w_r n) rlam && w_cut n) l) as WU.
  set (use := np_where (fun n => Qlt_bool (w_r n) rlam && w_cut n) l) in *.
  assert (Hin : In i use) by (apply WU; exists n; split; [exact Hi|]; apply Qlt_bool_iff in Hr; rewrite Hr, Hc; reflexivity).
  destruct (np_take_total l use) as [cand Ec]. { intros a Ha. apply WU in Ha. destruct Ha as [x [Hx _]]. apply nth_error_Some. congruence. }
  rewrite Ec. cbn [bind]. assert (NC : In n cand) by (apply (np_take_In _ _ _ _ Ec); exists i; auto).
  set (pb := map (pcen_basic lam sc) cand). pose proof (np_where_spec (fun p => Qlt_bool 0 p) pb) as WO.
  destruct (np_where (fun p => Qlt_bool 0 p) pb) as [|o0 os] eqn:Eo.
  - exfalso. apply (in_map (pcen_basic lam sc)) in NC. apply In_nth_error in NC. destruct NC as [k K]. apply (WO k). exists (pcen_basic lam sc n). split; [exact K|apply Qlt_bool_iff, P].
  - set (ok := o0 :: os) in *.
    destruct (np_take_total pb ok) as [pok Epok]. { intros a Ha. apply WO in Ha. destruct Ha as [x [Hx _]]. apply nth_error_Some. congruence. }
    rewrite Epok. cbn [bind]. pose proof (np_take_len _ _ _ Epok) as Lp.
    destruct (np_take_total ok (desc asort pok)) as [ord Eord]. { intros a Ha. apply desc_In in Ha; [lia|exact HA]. }
    rewrite Eord. reflexivity.
Qed.
Print Assumptions C26_no_place.
(** Without a galaxy passing the cuts the call raises instead of returning False. *)
Theorem C26_no_candidate_refuted : forall asort maxcen lam sc rlam l, (forall n, In n l -> ~ may_be_center rlam n) ->
  wcen_find asort maxcen lam sc rlam l = Err ValueError.
Proof.
  intros. apply wcen_no_candidate. intros n Hn. specialize (H n Hn). unfold may_be_center in H.
  destruct (Qlt_le_dec (w_r n) rlam); [right|left; assumption]. destruct (w_cut n); [exfalso; apply H; auto|reflexivity].
Qed.
Print Assumptions C26_no_candidate_refuted.
Example C26_hyps : (exists i n, nth_error demo i = Some n /\ may_be_center 1 n) /\
  (exists n, In n demo /\ ~ may_be_center 1 n).
Proof.
  split; [exists 0; eexists; split; [reflexivity|split; reflexivity]|].
  exists (mkWN 2 true 1 1 0 1). split; [cbn; auto|]. intros [H _]. cbn in H. lra.
Qed.

(** ** C27 *)
(** find_center always answers; it names an eligible galaxy no eligible galaxy is brighter than (smaller magnitude),
    or says there is none when no galaxy is eligible. *)
Theorem C27_brightest : forall uz rlam z l, exists o l', bcg_find uz rlam z l = Ok (o, l') /\
  match o with
  | None => forall i n, nth_error l i = Some n -> ~ bcg_eligible uz rlam z n
  | Some i => exists n, nth_error l i = Some n /\ bcg_eligible uz rlam z n /\
                forall j m, nth_error l j = Some m -> bcg_eligible uz rlam z m -> (b_mag n <= b_mag m)%Q
  end.
Proof. exact bcg_main. Qed.
Print Assumptions C27_brightest.
Theorem C27_false_iff : forall uz rlam z l, (exists l', bcg_find uz rlam z l = Ok (None, l')) <->
  (forall i n, nth_error l i = Some n -> ~ bcg_eligible uz rlam z n).
Proof.
  intros uz rlam z l. destruct (bcg_main uz rlam z l) as [o [l' [E H]]]. split.
  - intros [l2 E2]. rewrite E in E2. destruct o; [discriminate|exact H].
  - intros Hn. destruct o as [i|]; [|eauto]. destruct H as [n [H1 [H2 _]]]. exfalso. exact (Hn _ _ H1 H2).
Qed.
Print Assumptions C27_false_iff.
Definition demo_b : list bn :=
  [ mkBN (1#10) (9#10) (2#10) (1#100) (-1) 0 18; mkBN 3 1 (2#10) (1#100) (-1) 0 15; mkBN (1#10) (1#10) (2#10) (1#100) (3#10) (1#1000) 17 ].
Example C27_case : bcg_find true 1 (2#10) demo_b = Ok (Some 0, bcg_zspec true demo_b) /\
  bcg_find false 1 (2#10) demo_b = Ok (Some 2, demo_b) /\ exists l', bcg_find false (1#100) (2#10) demo_b = Ok (None, l').
Proof. repeat split; try (vm_compute; reflexivity). eexists. vm_compute. reflexivity. Qed.

(** ** C28 *)
(** When the memberships are not all zero, every draw picks a neighbour of positive membership. *)
Theorem C28_member_partial : forall asort pmem u, argsort_spec asort -> (forall p, In p pmem -> 0 <= p)%Q -> (0 < Qsum pmem)%Q ->
  (0 <= u)%Q -> (u < 1)%Q -> exists i p, sat_find asort pmem u = Ok i /\ nth_error pmem i = Some p /\ (0 < p)%Q.
Proof. exact sat_ok. Qed.
Print Assumptions C28_member_partial.
(** Without a neighbour of positive probability the call raises instead of returning False. *)
Theorem C28_no_member_refuted : forall asort pmem u, argsort_spec asort -> (forall p, In p pmem -> p == 0)%Q ->
  sat_find asort pmem u = Err IndexError.
Proof. exact sat_zero. Qed.
Print Assumptions C28_no_member_refuted.
Example C28_case : sat_find argsort [0; 1#2; 1#4; 0]%Q (1#10) = Ok 1 /\ sat_find argsort [0; 1#2; 1#4; 0]%Q (99#100) = Ok 2 /\ sat_find argsort [0%Q; 0%Q] (1#2) = Err IndexError.
Proof. repeat split; vm_compute; reflexivity. Qed.

(** ** C64 *)
(** Without spectroscopic redshifts in use nothing is changed. *)
Theorem C64_unchanged_partial : forall rlam z l o l', bcg_find false rlam z l = Ok (o, l') -> l' = l.
Proof. exact bcg_keeps. Qed.
Print Assumptions C64_unchanged_partial.
(** With centering_use_zspec the photometric redshift of every neighbour with a spectrum is replaced. *)
Theorem C64_overwritten_refuted : forall rlam z l o l' i n, bcg_find true rlam z l = Ok (o, l') -> nth_error l i = Some n ->
  (0 < b_zspec n)%Q -> exists n', nth_error l' i = Some n' /\ b_zred n' = b_zspec n.
Proof. exact bcg_overwrites. Qed.
Print Assumptions C64_overwritten_refuted.
Example C64_case : exists o l' n', bcg_find true 1 (2#10) demo_b = Ok (o, l') /\ nth_error l' 2 = Some n' /\ b_zred n' = (3#10)%Q.
Proof. do 3 eexists. split; [vm_compute; reflexivity|]. split; reflexivity. Qed.
(** Which galaxies are no candidates: those without a density as a center (below 1e-10), and those that are not free.  A galaxy is never
    a center with a probability above 0.99999; up to this cap it is the share of the density of centers in that of all three kinds, times
    the probability of being free. *)
Theorem C25_basic lam sc n : (floor10 (w_ucen n) == 0 \/ w_pfree n == 0 -> pcen_basic lam sc n == 0)%Q /\ (pcen_basic lam sc n <= 99999 # 100000)%Q /\
  (w_ucen n < 1 # 10000000000 -> pcen_basic lam sc n == 0)%Q /\
  (~ w_pfree n == 0 -> (1 # 10000000000) <= w_ucen n -> floor10 (w_ucen n) + (lam / sc - 1) * floor10 (w_usat n) + w_bkg n == 0 -> pcen_basic lam sc n == 99999 # 100000)%Q /\
  (let all := floor10 (w_ucen n) + (lam / sc - 1) * floor10 (w_usat n) + w_bkg n in 0 < all ->
     (pcen_basic lam sc n * all == w_pfree n * floor10 (w_ucen n) \/ pcen_basic lam sc n == 99999 # 100000 /\ (99999 # 100000) * all < w_pfree n * floor10 (w_ucen n)))%Q.
Proof.
  assert (A : (floor10 (w_ucen n) == 0 \/ w_pfree n == 0 -> pcen_basic lam sc n == 0)%Q).
  { intros H. unfold pcen_basic. set (u := floor10 (w_ucen n)) in *. set (d := (u + _ + _)%Q). assert (Z : (w_pfree n * u == 0)%Q) by (destruct H as [-> | ->]; ring).
    destruct (Qeq_bool d 0) eqn:D; [apply Qeq_bool_iff in Z; rewrite Z; reflexivity|].
    assert (Y : (w_pfree n * (u / d) == 0)%Q) by (unfold Qdiv; rewrite Qmult_assoc, Z; ring). unfold Qmin2. destruct (Qle_bool _ _) eqn:B; [exact Y|].
    exfalso. assert (B' : (w_pfree n * (u / d) <= 99999 # 100000)%Q) by (rewrite Y; discriminate). apply Qle_bool_iff in B'. congruence. }
  split; [exact A|]. split; [|split; [|split]].
  - unfold pcen_basic. destruct (Qeq_bool _ 0); [destruct (Qeq_bool _ 0); discriminate|]. unfold Qmin2. destruct (Qle_bool _ _) eqn:B; [apply Qle_bool_iff, B|apply Qle_refl].
  - intros H. apply A. left. unfold floor10. apply Qlt_bool_iff in H. rewrite H. reflexivity.
  - intros P U D. unfold pcen_basic. apply Qeq_bool_iff in D. rewrite D. assert (F : floor10 (w_ucen n) = w_ucen n) by (unfold floor10; destruct (Qlt_bool _ _) eqn:B; [apply Qlt_bool_iff in B; exfalso; apply (Qlt_not_le _ _ B U)|reflexivity]).
    rewrite F. destruct (Qeq_bool (w_pfree n * w_ucen n) 0) eqn:Z; [|reflexivity]. apply Qeq_bool_iff in Z. exfalso. apply Qmult_integral in Z. destruct Z as [Z|Z]; [contradiction|].
    rewrite Z in U. apply (Qlt_not_le 0 (1 # 10000000000)); [reflexivity|exact U].
  - cbv zeta. unfold pcen_basic. set (d := (floor10 (w_ucen n) + _ + _)%Q). intros D. assert (Dn : ~ (d == 0)%Q) by (intros E; rewrite E in D; discriminate D).
    destruct (Qeq_bool d 0) eqn:B; [apply Qeq_bool_iff in B; contradiction|]. unfold Qmin2. destruct (Qle_bool _ _) eqn:C; [left; field; exact Dn|right]. split; [reflexivity|].
    apply Qnot_le_lt. intros X. assert (Y : (w_pfree n * (floor10 (w_ucen n) / d) <= 99999 # 100000)%Q); [|apply Qle_bool_iff in Y; congruence].
    apply (Qmult_le_r _ _ d D). setoid_replace (w_pfree n * (floor10 (w_ucen n) / d) * d)%Q with (w_pfree n * floor10 (w_ucen n))%Q by (field; exact Dn). exact X.
Qed.
Print Assumptions C25_basic.
