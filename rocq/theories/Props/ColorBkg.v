(** C121, C122: the colour backgrounds, made and read. *)
From Coq Require Import QArith Qround Sorting.Sorted.
From Verif.Base Require Import Py PyLemmas.
From Verif.Model Require Import Util BkgTable Maskgals RedCal ColorBkg.
From Verif.Spec Require Import Util BkgTable RedCal ColorBkg.
From Verif.Proofs Require Import Util BkgTable RedCal ColorBkg.
From Verif.Proofs Require Centering.
From Coq Require Import Lqa Lia List. Import ListNotations.
Local Open Scope Q_scope.

(** * C121 *)
(** C121: the range of a colour runs from the first bin with more than the asked number of galaxies to the last, and there is one
    when there is such a bin. *)
Theorem C121_range : forall minrange limmag cm,
  ((exists k, (k < 351)%nat /\ rich minrange limmag cm k) <-> exists r, col_range minrange limmag cm = Ok r) /\
  forall lo hi, col_range minrange limmag cm = Ok (lo, hi) ->
    exists k1 k2, (k1 <= k2 < 351)%nat /\ lo == - (2) + Qn k1 * (2 # 100) /\ hi == - (2) + Qn (S k2) * (2 # 100) /\
      rich minrange limmag cm k1 /\ rich minrange limmag cm k2 /\ forall k, (k < 351)%nat -> rich minrange limmag cm k -> (k1 <= k <= k2)%nat.
Proof.
  intros mr lim cm. destruct (col_where mr lim cm) as (W & S). unfold col_range. cbv zeta.
  match goal with |- context [np_where ?p ?h] => set (w := np_where p h) in * end. clearbody w. split.
  - split.
    + intros (k & Hk & Hr). destruct w as [|a t]; [exfalso; apply (proj2 (W k) (conj Hk Hr))|eauto].
    + intros (r & E). destruct w as [|a t]; [discriminate|]. exists a. apply W. left. reflexivity.
  - intros lo hi E. destruct w as [|a t]; [discriminate|]. injection E as E1 E2. exists a, (last t a).
    assert (L : In (last t a) (a :: t)) by (destruct t as [|b t]; [left; reflexivity|right; apply last_In; discriminate]).
    assert (A : In a (a :: t)) by (left; reflexivity). pose proof (SS_last_le _ _ S) as Hle.
    apply W in A as [A1 A2]. pose proof L as L'. apply W in L as [L1 L2].
    split; [split; [apply Hle; left; reflexivity|exact L1]|]. split; [rewrite <- E1; unfold colbinsize, Qn; ring|]. split; [rewrite <- E2, Qn_S; unfold colbinsize, Qn; ring|].
    split; [exact A2|]. split; [exact L2|]. intros k Hk Hr. assert (I : In k (a :: t)) by (apply W; split; assumption). split; [|apply Hle, I].
    destruct I as [<-|I]; [lia|]. inversion S as [|? ? _ F]; subst. apply Nat.lt_le_incl. rewrite Forall_forall in F. apply F, I.
Qed.
Print Assumptions C121_range.
(** Finding: when no bin of a colour has more than the asked number of galaxies, the generation ends with the ValueError of an empty
    minimum rather than with a message. *)
Theorem C121_sparse_refuted : forall minrange limmag cm, (forall k, (k < 351)%nat -> ~ rich minrange limmag cm k) -> col_range minrange limmag cm = Err ValueError.
Proof.
  intros mr lim cm H. destruct (col_where mr lim cm) as (W & _). unfold col_range. cbv zeta.
  match goal with |- context [np_where ?p ?h] => set (w := np_where p h) in * end. clearbody w. destruct w as [|a t]; [reflexivity|].
  destruct (W a) as [A _]. destruct (A (or_introl eq_refl)) as [A1 A2]. destruct (H a A1 A2).
Qed.
Print Assumptions C121_sparse_refuted.

(** C121: a cell of the table of one colour is the sum of the shares of the galaxies in it over the size of the bin; the range is one
    of whole bins (C121_range), the magnitudes are divided into equal parts. *)
Theorem C121_diag : forall lo K limmag cs ms, (0 < K)%nat -> 12 < limmag ->
  let hi := lo + Qn K * (2 # 100) in let nm := Z.to_nat (Qceiling ((limmag - 12) / (5 # 100))) in
  exists t, diag_table lo hi limmag cs ms = Ok t /\ shape t nm K /\
    forall m j, (m < nm)%nat -> (j < K)%nat ->
      cell t m j == Qsum (map (fun g => share lo (2 # 100) (fst g) j * share 12 ((limmag - 12) / Qn nm) (snd g) m)
                     (filter (fun g => Qle_bool lo (fst g) && Qlt_bool (fst g) hi && (Qle_bool 12 (snd g) && Qlt_bool (snd g) limmag)) (combine cs ms)))
                    / ((5 # 100) * (2 # 100)).
Proof.
  intros lo K lim cs ms HK Hl hi nm. assert (PK : 0 < Qn K) by (unfold Qn; apply injZ_pos; lia). assert (Hh : lo < hi) by (unfold hi; lra).
  assert (EK : nbins lo hi colbinsize = Z.of_nat K) by (apply nbins_whole; unfold hi, colbinsize, Qn; reflexivity).
  destruct (table_spec lo hi colbinsize 12 lim refmagbinsize (repeat 1 (Z.to_nat (nbins 12 lim refmagbinsize))) (fun m => Qle_bool 12 m && Qlt_bool m lim) (fun c => c) Hh Hl) with (l := cs) (r := ms) as (t & E & Hs & Hv);
    [reflexivity|reflexivity| |auto|].
  { intros m H. apply andb_true_iff in H. destruct H as [H1 H2]. apply Qle_bool_iff in H1. apply Qlt_bool_iff in H2. auto. }
  exists t. split; [exact E|]. rewrite EK, Nat2Z.id in Hs, Hv. change (Z.to_nat (nbins 12 lim refmagbinsize)) with nm in Hs, Hv. split; [exact Hs|].
  assert (Pm : (0 < nbins 12 lim refmagbinsize)%Z) by (apply nbins_pos; [exact Hl|reflexivity]).
  assert (En : inject_Z (nbins 12 lim refmagbinsize) = Qn nm) by (unfold Qn, nm; rewrite Z2Nat.id; [reflexivity|apply Z.lt_le_incl, Pm]).
  intros m j Hm Hj. rewrite (Hv m j Hm Hj), En. rewrite nth_repeat_lt by exact Hm.
  assert (EW : (hi - lo) / inject_Z (Z.of_nat K) == 2 # 100) by (unfold hi, Qn in *; field; lra).
  apply Qmult_comp; [|reflexivity]. apply Qsum_map_ext. intros g _. apply Qmult_comp; [|reflexivity]. apply share_w, EW.
Qed.
Print Assumptions C121_diag.
(** C121: the number of a magnitude bin, times the size of the bin, is the number of galaxies (by their shares in magnitude) whose
    boxes lie inside of the range of the colour. *)
Theorem C121_numbers : forall lo K limmag cs ms t, (0 < K)%nat -> 12 < limmag ->
  let hi := lo + Qn K * (2 # 100) in let nm := Z.to_nat (Qceiling ((limmag - 12) / (5 # 100))) in
  let sel := filter (fun g => Qle_bool lo (fst g) && Qlt_bool (fst g) hi && (Qle_bool 12 (snd g) && Qlt_bool (snd g) limmag)) (combine cs ms) in
  (forall g, In g sel -> lo + (1 # 100) <= fst g /\ fst g <= hi - (1 # 100)) ->
  diag_table lo hi limmag cs ms = Ok t ->
  List.length (diag_n t) = nm /\
  forall m, (m < nm)%nat -> nth m (diag_n t) 0 * (5 # 100) == Qsum (map (fun g => share 12 ((limmag - 12) / Qn nm) (snd g) m) sel).
Proof.
  intros lo K lim cs ms t HK Hl hi nm sel Hin E. destruct (C121_diag lo K lim cs ms HK Hl) as (t' & E' & (Hs1 & Hs2) & Hv). fold hi nm in E', Hs1, Hs2, Hv.
  rewrite E in E'. injection E' as <-. unfold diag_n. rewrite map_length. split; [exact Hs1|]. intros m Hm.
  rewrite nth_indep with (d' := Qsum [] * colbinsize) by (rewrite map_length; lia). rewrite (map_nth (fun row => Qsum row * colbinsize)).
  set (row := nth m t []). assert (Lr : List.length row = K) by (apply Hs2, Hm).
  assert (ER : Qsum row == Qsum (map (fun j => cell t m j) (seq 0 K))) by (rewrite <- Lr; unfold cell; fold row; rewrite (Qsum_nth_seq (fun x => x) row 0), map_id; reflexivity).
  rewrite ER. rewrite (Qsum_map_ext _ (fun j => Qsum (map (fun g => share lo (2 # 100) (fst g) j * share 12 ((lim - 12) / Qn nm) (snd g) m) sel) / ((5 # 100) * (2 # 100)))) by (intros j Hj; apply in_seq in Hj; apply Hv; lia).
  rewrite Centering.Qsum_map_div. rewrite <- (Qsum_swap (fun g j => share lo (2 # 100) (fst g) j * share 12 ((lim - 12) / Qn nm) (snd g) m) sel (seq 0 K)).
  rewrite (Qsum_map_ext _ (fun g => share 12 ((lim - 12) / Qn nm) (snd g) m)).
  { unfold colbinsize. field. }
  intros g Hg. rewrite Qsum_mul_r. rewrite share_sum; [ring|reflexivity| |]; assert (HH : (2 # 100) / 2 == 1 # 100) by reflexivity; rewrite HH; destruct (Hin g Hg) as [A B]; unfold hi, Qn in B; lra.
Qed.
Print Assumptions C121_numbers.
(** C121: the same with two colours. *)
Theorem C121_off : forall lo1 K1 lo2 K2 limmag gs, (0 < K1)%nat -> (0 < K2)%nat -> 12 < limmag ->
  let hi1 := lo1 + Qn K1 * (2 # 100) in let hi2 := lo2 + Qn K2 * (2 # 100) in
  let nm := Z.to_nat (Qceiling ((limmag - 12) / (5 # 100))) in
  exists t sel, off_table lo1 hi1 lo2 hi2 limmag gs = Ok t /\ List.length t = nm /\
    (forall m, (m < nm)%nat -> shape (nth m t []) K2 K1) /\
    (exists p, sel = filter p gs /\ forall g, p g = true <-> counted3 lo1 hi1 lo2 hi2 limmag g) /\
    forall m k j, (m < nm)%nat -> (k < K2)%nat -> (j < K1)%nat ->
      cell3 t m k j == Qsum (map (fun g => share lo1 (2 # 100) (g3_c1 g) j * share lo2 (2 # 100) (g3_c2 g) k * share 12 ((limmag - 12) / Qn nm) (g3_m g) m) sel)
                       / ((5 # 100) * (2 # 100) * (2 # 100)).
Proof.
  intros lo1 K1 lo2 K2 lim gs H1 H2 Hl hi1 hi2 nm.
  destruct (off_spec lo1 K1 lo2 K2 lim gs H1 H2 Hl) as (t & E & L & S & V). exists t, (filter (in3 lo1 hi1 lo2 hi2 lim) gs).
  split; [exact E|]. split; [exact L|]. split; [exact S|]. split; [|exact V]. exists (in3 lo1 hi1 lo2 hi2 lim). split; [reflexivity|].
  intros g. unfold in3, counted3. rewrite !andb_true_iff, !Qle_bool_iff, !Qlt_bool_iff. tauto.
Qed.
Print Assumptions C121_off.
(** C121: a run that is not interrupted writes each pair of colours once, whatever was there, if it may write. *)
Theorem C121_complete : forall ncol clobber f, (0 < ncol)%nat -> f = None \/ clobber = true ->
  exists l, run ncol clobber None f = Some l /\ NoDup l /\ forall i j, In (i, j) l <-> (i <= j < ncol)%nat.
Proof.
  intros ncol clobber f Hn Hc. exists (pairs ncol). split; [|split; [apply pairs_NoDup|apply pairs_In]].
  assert (E : run ncol clobber None f = fold_left write (pairs ncol) f) by (unfold run; destruct Hc as [->| ->]; [reflexivity|destruct f; reflexivity]).
  rewrite E. destruct (pairs_head ncol Hn) as (t & -> & Ht). cbn [fold_left]. assert (W : write f (0, 0)%nat = Some [(0, 0)%nat]) by reflexivity. rewrite W, fold_write by exact Ht. reflexivity.
Qed.
Print Assumptions C121_complete.
(** C121: a complete file is left alone by a later run without [clobber]. *)
Theorem C121_kept : forall ncol crash l, run ncol false crash (Some l) = Some l.
Proof. reflexivity. Qed.
Print Assumptions C121_kept.
(** Finding: the file is appended to, pair by pair, under its final name: after an interruption a later run finds it, takes it for
    complete and leaves pairs of colours out. *)
Theorem C121_crash_refuted : forall ncol k, (2 <= ncol)%nat -> (1 <= k)%nat -> (k < List.length (pairs ncol))%nat ->
  exists l, run ncol false None (run ncol false (Some k) None) = Some l /\ exists i j, (i <= j < ncol)%nat /\ ~ In (i, j) l.
Proof.
  intros ncol k Hn H1 Hk. exists (firstn k (pairs ncol)). split.
  - assert (E : run ncol false (Some k) None = Some (firstn k (pairs ncol))).
    { unfold run. destruct (pairs_head ncol ltac:(lia)) as (t & -> & Ht). destruct k as [|k]; [lia|]. cbn [firstn fold_left]. change (write None (0, 0)%nat) with (Some [(0, 0)%nat]).
      rewrite fold_write; [reflexivity|]. intros x Hx. apply Ht. apply (In_firstn _ _ _ Hx). }
    rewrite E. reflexivity.
  - destruct (nth_error (pairs ncol) k) as [[i j]|] eqn:E; [|apply nth_error_None in E; lia]. exists i, j. split; [apply pairs_In, (nth_error_In _ _ E)|].
    apply nodup_firstn; [apply pairs_NoDup|exact E].
Qed.
Print Assumptions C121_crash_refuted.
Example C121_ex : run 2 false None (run 2 false (Some 2%nat) None) = Some [(0, 0); (0, 1)]%nat /\ run 2 false None None = Some [(0, 0); (0, 1); (1, 1)]%nat /\
  col_range 1 20 [(1#10, 15); (1#10, 16); (3#10, 16); (3#10, 17); (5#10, 16)] = Ok (inject_Z 105 * (2#100) + -2, inject_Z 115 * (2#100) + -2 + (2#100)).
Proof. vm_compute. auto. Qed.

(** * C122 *)
(** C122: the densities of two colours that are looked up sum to one over the bins. *)
Theorem C122_off : forall planes k plane n nc, nth_error planes k = Some plane -> nth_error (off_norm planes) k = Some n -> ~ n == 0 ->
  (forall row, In row plane -> List.length row = nc) ->
  Qsum (map (fun row => Qsum (map (fun v => density v n * (1 # 100) * (1 # 100)) row)) plane) == 1.
Proof.
  intros planes k plane n nc Hp Hn N0 Hr. unfold off_norm in Hn. rewrite nth_error_map, Hp in Hn. injection Hn as En.
  assert (D : forall row, Qsum (map (fun v => density v n * (1 # 100) * (1 # 100)) row) == Qsum row * (1 # 100) * (1 # 100) / n).
  { induction row as [|v row IH]; cbn [map Qsum]; [field; exact N0|]. rewrite IH. unfold density. field. exact N0. }
  rewrite (Qsum_map_ext _ _ _ (fun r _ => D r)). rewrite Centering.Qsum_map_div.
  assert (S : n == Qsum (map Qsum plane) * (1 # 100) * (1 # 100)).
  { rewrite <- En. fold fine. destruct plane as [|r0 plane]; [cbn; unfold fine; ring|]. cbn [nth]. assert (L0 : List.length r0 = nc) by (apply Hr; left; reflexivity). rewrite L0.
    set (pl := r0 :: plane) in *. unfold fine. rewrite (Qsum_mul_r (fun i => Qsum (column pl i)) (1 # 100)). apply Qmult_comp; [|reflexivity]. apply Qmult_comp; [|reflexivity]. unfold column.
    rewrite (Qsum_swap (fun i row => nth i row 0) (seq 0 nc) pl). apply Qsum_map_ext. intros row Hrow. rewrite <- (Hr row Hrow), (Qsum_nth_seq (fun x => x) row 0), map_id. reflexivity. }
  assert (M : Qsum (map (fun r => Qsum r * (1 # 100) * (1 # 100)) plane) == Qsum (map Qsum plane) * (1 # 100) * (1 # 100)).
  { rewrite (Qsum_map_ext _ (fun r => Qsum r * ((1 # 100) * (1 # 100)))) by (intros; ring). rewrite Qsum_mul_r. ring. }
  rewrite M, <- S. field. exact N0.
Qed.
Print Assumptions C122_off.
(** C122: the values looked up are never negative. *)
Theorem C122_nonneg : forall mags cols t fmags fcols bc n, read_diag mags cols t fmags fcols = Ok (bc, n) ->
  (forall row v, In row bc -> In v row -> 0 <= v) /\ (forall x, In x n -> 0 <= x).
Proof.
  intros mags cols t fmags fcols bc n H. unfold read_diag in H. destruct (all_ok _ (seq _ _)) as [bycol|e] eqn:E1; cbn [bind] in H; [|discriminate].
  destruct (all_ok _ _) as [bn|e] eqn:E2 in H; cbn [bind] in H; [|discriminate]. injection H as <- <-. split.
  - intros row v Hr Hv. destruct (all_ok_In _ _ _ E2 _ Hr) as (r & _ & E). apply (interps_nonneg _ _ _ _ E), Hv.
  - intros x Hx. apply in_map_iff in Hx. destruct Hx as (row & <- & Hrow). apply Qmult_le_0_compat; [|vm_compute; discriminate].
    apply Qsum_nonneg. intros y Hy. apply in_map_iff in Hrow. destruct Hrow as (k & <- & _). apply in_map_iff in Hy. destruct Hy as (c & <- & Hc).
    destruct (all_ok_In _ _ _ E1 _ Hc) as (i & _ & E). destruct (nth_in_or_default k c 0) as [I|D]; [|rewrite D; lra]. apply (interps_nonneg _ _ _ _ E), I.
Qed.
Print Assumptions C122_nonneg.
(** Finding: the normalisation of a table of one colour is the sum of its stored values times the ratio of the two bin sizes, not times
    the size of a bin: for a colour with the same density everywhere the densities that are looked up integrate to 1/25. *)
Theorem C122_diag_refuted : forall lo K c mags fmags, (2 <= K)%nat -> 0 < c -> StronglySorted Qlt mags -> (2 <= List.length mags)%nat ->
  let cols := map (fun k => lo + Qn k * (2 # 100)) (seq 0 K) in
  let fcols := arange lo (lo + Qn K * (2 # 100)) (1 # 100) in
  exists bc n, read_diag mags cols (flat_table c (List.length mags) K) fmags fcols = Ok (bc, n) /\ List.length bc = List.length fmags /\ List.length n = List.length fmags /\
    forall k row x, nth_error bc k = Some row -> nth_error n k = Some x -> Qsum (map (fun v => density v x * (1 # 100)) row) == 1 # 25.
Proof.
  intros lo K c mags fmags HK Hc Hs HM cols fcols. assert (LC : List.length cols = K) by (unfold cols; rewrite map_length, seq_length; reflexivity).
  assert (LF : List.length fcols = (2 * K)%nat) by (apply fine_count).
  unfold read_diag. rewrite LC.
  destruct (all_ok_map (fun i => interps (column (flat_table c (List.length mags) K) i) mags fmags) (fun _ r => List.length r = List.length fmags /\ forall y, In y r -> y == c) (seq 0 K)) as (bycol & E1 & F1).
  { intros i Hi. apply in_seq in Hi. apply interps_const; [lra|exact Hs|unfold column, flat_table; rewrite map_length, repeat_length; reflexivity|exact HM|].
    intros y Hy. unfold column, flat_table in Hy. apply in_map_iff in Hy. destruct Hy as (row & <- & Hrow). apply repeat_spec in Hrow. subst row. rewrite nth_repeat_lt by lia. reflexivity. }
  rewrite E1. cbn [bind]. pose proof (forall2_len _ _ _ F1) as L1. rewrite seq_length in L1.
  pose proof (forall2_r _ (fun r => List.length r = List.length fmags /\ forall y, In y r -> y == c) _ _ (fun _ _ H => H) F1) as B1. clear F1 E1.
  set (bc := map _ (seq 0 (List.length fmags))).
  assert (B2 : forall row, In row bc -> List.length row = K /\ forall y, In y row -> y == c).
  { intros row Hr. apply in_map_iff in Hr. destruct Hr as (k & <- & Hk). apply in_seq in Hk. split; [rewrite map_length; exact L1|]. intros y Hy. apply in_map_iff in Hy. destruct Hy as (r & <- & Hr).
    destruct (B1 r Hr) as [Lr Cr]. apply Cr, nth_In. lia. }
  destruct (all_ok_map (fun row => interps row cols fcols) (fun _ r => List.length r = (2 * K)%nat /\ forall y, In y r -> y == c) bc) as (bn & E2 & F2).
  { intros row Hr. destruct (B2 row Hr) as [Lr Cr]. rewrite <- LF. apply interps_const; [lra|apply cols_sorted|lia|lia|exact Cr]. }
  rewrite E2. cbn [bind]. pose proof (forall2_len _ _ _ F2) as L2. assert (Lb : List.length bc = List.length fmags) by (unfold bc; rewrite map_length, seq_length; reflexivity).
  pose proof (forall2_r _ (fun r => List.length r = (2 * K)%nat /\ forall y, In y r -> y == c) _ _ (fun _ _ H => H) F2) as B3.
  do 2 eexists. split; [reflexivity|]. split; [congruence|]. split; [rewrite map_length; exact Lb|].
  intros k row x Hrow Hx. rewrite nth_error_map in Hx. destruct (nth_error bc k) as [r|] eqn:Er; [|discriminate]. injection Hx as Hx.
  destruct (B2 r (nth_error_In _ _ Er)) as [Lr Cr]. destruct (B3 row (nth_error_In _ _ Hrow)) as [Lw Cw].
  assert (PK : 0 < inject_Z (Z.of_nat K)) by (apply injZ_pos; lia).
  assert (X : Qsum r * (fine / colbinsize) == inject_Z (Z.of_nat K) * c * (1 # 2)) by (rewrite (Qsum_all r c Cr), Lr; unfold fine, colbinsize; field).
  assert (PX : 0 < inject_Z (Z.of_nat K) * c) by (apply Qmult_lt_0_compat; lra).
  rewrite Hx in X. clear Hx.
  assert (SS : forall l : list Q, Qsum (map (fun v => density v x * (1 # 100)) l) == Qsum l * (1 # 100) / x).
  { induction l as [|v l IH]; cbn [map Qsum]; [field; lra|]. rewrite IH. unfold density. field. lra. }
  rewrite SS, (Qsum_all row c Cw), Lw, X. rewrite Nat2Z.inj_mul, inject_Z_mult. change (inject_Z (Z.of_nat 2)) with 2. field. split; lra.
Qed.
Print Assumptions C122_diag_refuted.
Example C122_ex : (exists bc n, read_diag [12; 13] [0; 2 # 100] [[1; 3]; [2; 4]] [12; 125 # 10] [0; 1 # 100; 2 # 100; 3 # 100] = Ok (bc, n) /\
    map (map Qred) bc = [[1; 2; 3; 4]; [3 # 2; 5 # 2; 7 # 2; 9 # 2]] /\ map Qred n = [2; 5 # 2]) /\
  map Qred (off_norm [[[1; 3]; [2; 4]]]) = [1 # 1000].
Proof. vm_compute. eauto 10. Qed.
