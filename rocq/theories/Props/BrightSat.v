(** C177: the brightest satellites of the Monte Carlo of the centering calibration. *)
From Coq Require Import Reals Lra.
From Verif.Base Require Import Py PyLemmas.
From Verif.Model Require Import Galfile ErrBin Wcen BrightSat.
From Verif.Spec Require Import BrightSat.
From Verif.Proofs Require Import ErrBin RedSamp Ingest BrightSat.
From Coq Require Import Lia List Permutation Sorting.Sorted. Import ListNotations.
Local Open Scope R_scope.

(** A trial draws different galaxies, one fewer than the richness, and returns the three brightest of them. *)
Theorem C177_three mag lam st : Permutation st (seq 0 (List.length mag)) -> (4 <= lam)%Z -> (3 <= List.length mag)%nat ->
  exists a b c, trial mag lam st = Ok (a, b, c) /\ three_smallest (map (fun i => nth i mag 0) (firstn (Z.to_nat (lam - 1)) st)) a b c /\ NoDup (firstn (Z.to_nat (lam - 1)) st).
Proof.
  intros P L N. assert (B : forall i, In i (firstn (Z.to_nat (lam - 1)) st) -> (i < List.length mag)%nat). { intros i I. apply firstn_In_sub in I. apply (Permutation_in _ P), in_seq in I. lia. }
  assert (ND : NoDup (firstn (Z.to_nat (lam - 1)) st)). { assert (D : NoDup st) by (apply (Permutation_NoDup (Permutation_sym P)), seq_NoDup). rewrite <- (firstn_skipn (Z.to_nat (lam - 1)) st) in D. clear -D. induction (firstn (Z.to_nat (lam - 1)) st) as [|x l IH]; [constructor|]. cbn in D. inversion_clear D as [|? ? D1 D2]. constructor; [intros I; apply D1, in_or_app; left; exact I|apply IH, D2]. }
  set (v := map (fun i => nth i mag 0) (firstn (Z.to_nat (lam - 1)) st)). assert (LV : (3 <= List.length v)%nat). { unfold v. rewrite map_length, firstn_length, (Permutation_length P), seq_length. lia. }
  destruct (smallest_sort v LV) as (a & b & c & t & E). exists a, b, c. split; [|split; [apply (three_of_sort _ _ _ _ t), E|exact ND]]. unfold trial. rewrite at_total by exact B. cbn [bind]. fold v. rewrite E. reflexivity.
Qed.
Print Assumptions C177_three.
(** In one trial a richer cluster has no fainter brightest, second and third galaxy. *)
Theorem C177_richer mag st lam lam' a b c a' b' c' : (lam <= lam')%Z -> trial mag lam st = Ok (a, b, c) -> trial mag lam' st = Ok (a', b', c') -> a' <= a /\ b' <= b /\ c' <= c.
Proof.
  intros L H H'. apply trial_ok in H as (v & V & A & B & C). apply trial_ok in H' as (v' & V' & A' & B' & C'). apply at_nth in V as [-> _]. apply at_nth in V' as [-> _].
  assert (E : exists r, firstn (Z.to_nat (lam' - 1)) st = firstn (Z.to_nat (lam - 1)) st ++ r).
  { exists (skipn (Z.to_nat (lam - 1)) (firstn (Z.to_nat (lam' - 1)) st)). rewrite <- (firstn_skipn (Z.to_nat (lam - 1)) (firstn (Z.to_nat (lam' - 1)) st)) at 1. f_equal. rewrite firstn_firstn. f_equal. lia. }
  destruct E as [r E]. rewrite E, map_app in A', B', C'.
  assert (G : forall k x y, nth_error (sortR (map (fun i => nth i mag 0) (firstn (Z.to_nat (lam - 1)) st))) k = Some x -> nth_error (sortR (map (fun i => nth i mag 0) (firstn (Z.to_nat (lam - 1)) st) ++ map (fun i => nth i mag 0) r)) k = Some y -> y <= x).
  { intros k x y X Y. destruct (sort_app _ (map (fun i => nth i mag 0) r) k x X) as (w & W1 & W2). congruence. }
  split; [exact (G 0%nat a a' A A')|split; [exact (G 1%nat b b' B B')|exact (G 2%nat c c' C C')]].
Qed.
Print Assumptions C177_richer.
(** A trial fails, with an IndexError, exactly if fewer than three galaxies are drawn or one is not in the sample. *)
Theorem C177_fails mag lam st : let drawn := firstn (Z.to_nat (lam - 1)) st in
  (trial mag lam st = Err IndexError <-> (exists i, In i drawn /\ (List.length mag <= i)%nat) \/ (List.length drawn < 3)%nat) /\
  forall e, trial mag lam st = Err e -> e = IndexError.
Proof.
  intros drawn. unfold trial. fold drawn. assert (A : forall is, (exists v, mapM (at_index mag) is = Ok v /\ List.length v = List.length is /\ forall i, In i is -> (i < List.length mag)%nat) \/
    (mapM (at_index mag) is = Err IndexError /\ exists i, In i is /\ (List.length mag <= i)%nat)).
  { induction is as [|i t IH]; [left; exists []; cbn; split; [reflexivity|split; [reflexivity|intros _ []]]|]. cbn [mapM]. unfold at_index at 1 3. destruct (nth_error mag i) as [m|] eqn:E.
    - assert (I : (i < List.length mag)%nat) by (apply nth_error_Some; congruence). cbn [bind]. destruct IH as [(v & -> & L & F)|(-> & j & J & K)]; cbn [bind].
      + left. exists (m :: v). split; [reflexivity|]. split; [cbn; congruence|]. intros j [<-|J]; auto.
      + right. split; [reflexivity|]. exists j. split; [right; exact J|exact K].
    - apply nth_error_None in E. right. split; [reflexivity|]. exists i. split; [left; reflexivity|exact E]. }
  destruct (A drawn) as [(v & -> & L & F)|(-> & K)]; cbn [bind].
  - assert (P : List.length (sortR v) = List.length v) by (apply Permutation_length, sortR_perm). split.
    + split.
      * intros H. right. rewrite <- L, <- P. destruct (sortR v) as [|a [|b [|c t]]]; [cbn; lia|cbn; lia|cbn; lia|discriminate].
      * intros [(i & I & J)|S]; [specialize (F i I); lia|]. rewrite <- L, <- P in S. destruct (sortR v) as [|a [|b [|c t]]]; [reflexivity|reflexivity|reflexivity|cbn in S; lia].
    + intros e. destruct (sortR v) as [|a [|b [|c t]]]; congruence.
  - split; [split; [intros _; left; exact K|reflexivity]|congruence].
Qed.
Print Assumptions C177_fails.
(** Finding: a cluster of richness lambda is drawn with lambda - 1 galaxies: the slice ends one galaxy early.  If the last galaxy that should have been drawn is the brightest of all, the trial does not
    return it. *)
Theorem C177_count_refuted mag lam st i : (1 <= lam)%Z -> Permutation st (seq 0 (List.length mag)) -> nth_error st (Z.to_nat (lam - 1)) = Some i -> (forall j, (j < List.length mag)%nat -> j <> i -> nth i mag 0 < nth j mag 0) ->
  In i (firstn (Z.to_nat lam) st) /\ forall a b c, trial mag lam st = Ok (a, b, c) -> nth i mag 0 < a.
Proof.
  intros L P E H. split.
  - replace (Z.to_nat lam) with (S (Z.to_nat (lam - 1))) by lia. revert E. clear. generalize (Z.to_nat (lam - 1)). intros n. revert st. induction n as [|n IH]; intros [|x st] E; try discriminate; cbn in E; [injection E as <-; left; reflexivity|right; apply IH, E].
  - intros a b c T. apply trial_ok in T as (v & V & A & _). apply at_nth in V as [-> B]. apply nth_error_In in A. apply (Permutation_in _ (sortR_perm _)), in_map_iff in A as (j & <- & J). apply H; [apply B, J|]. intros ->.
    assert (D : NoDup st) by (apply (Permutation_NoDup (Permutation_sym P)), seq_NoDup). rewrite NoDup_nth_error in D. apply In_nth_error in J as [k K]. assert (KL : (k < Z.to_nat (lam - 1))%nat). { assert (X : (k < List.length (firstn (Z.to_nat (lam - 1)) st))%nat) by (apply nth_error_Some; congruence). rewrite firstn_length in X. lia. }
    assert (K' : nth_error st k = Some i). { rewrite <- K. clear -KL. revert st k KL. induction (Z.to_nat (lam - 1)) as [|n IH]; intros st k KL; [lia|]. destruct st as [|x st]; [destruct k; reflexivity|]. destruct k as [|k]; [reflexivity|]. cbn. apply IH. lia. }
    assert (k = Z.to_nat (lam - 1)) by (apply D; [apply nth_error_Some; congruence|congruence]). lia.
Qed.
Print Assumptions C177_count_refuted.
(** The result is, for the mean and the width of the brightest galaxy, the line in the logarithm of the richness that is closest to those of the nine (in tests three) richnesses from 20 to 100; on a line it is that line, and the
    magnitude expected at a richness lies on it. *)
Theorem C177_line hist pivot testing mag sts p : 0 < pivot -> montecarlo hist pivot testing mag sts = Ok p ->
  let lams := if testing then [20; 60; 100]%Z else [20; 30; 40; 50; 60; 70; 80; 90; 100]%Z in
  exists ms ws, List.length ms = List.length lams /\ List.length ws = List.length lams /\
    (forall i lam, nth_error lams i = Some lam -> exists rows n m w, mapM (trial mag lam) sts = Ok rows /\ hist (map (fun r => fst (fst r)) rows) = Ok (n, m, w) /\ nth_error ms i = Some m /\ nth_error ws i = Some w) /\
    let x := map (fun l => ln (IZR l / pivot)) lams in
    (forall q, squares x ms (p_m p, p_slope p) <= squares x ms q) /\ (forall q, squares x ws (p_sig_m p, p_sig_slope p) <= squares x ws q) /\
    (forall a b mstar lam, (forall i l m, nth_error lams i = Some l -> nth_error ms i = Some m -> m = a + b * ln (IZR l / pivot)) -> bright_mean p pivot mstar lam = mstar + (a + b * ln (lam / pivot))) /\
    (forall a b lam, (forall i l w, nth_error lams i = Some l -> nth_error ws i = Some w -> w = a + b * ln (IZR l / pivot)) -> bright_width p pivot lam = a + b * ln (lam / pivot)).
Proof.
  intros P H lams. unfold montecarlo in H. replace (lambdas (nlambdas testing)) with lams in H by (destruct testing; reflexivity). cbv zeta in H. destruct (mapM _ lams) as [rows|] eqn:R; [|discriminate]. cbn [bind] in H. destruct (mapM _ rows) as [fits|] eqn:F; [|discriminate]. cbn [bind] in H. remember (polyfit1 (map (fun l => ln (IZR l / pivot)) lams) (map fst fits)) as M eqn:EM. remember (polyfit1 (map (fun l => ln (IZR l / pivot)) lams) (map snd fits)) as W eqn:EW. injection H as <-. cbn [p_m p_slope p_sig_m p_sig_slope].
  apply mapM_ok in R, F. pose proof (Forall2_len _ _ _ R) as LR. pose proof (Forall2_len _ _ _ F) as LF. exists (map fst fits), (map snd fits). rewrite !map_length. split; [lia|]. split; [lia|]. split.
  - intros i lam I. destruct (F2e _ _ _ R i lam I) as (rw & X1 & X2). destruct (F2e _ _ _ F i rw X1) as (f & Y1 & Y2). unfold lam_fits in Y2. destruct (hist (map (fun r => fst (fst r)) rw)) as [[[n m] w]|] eqn:E; [|discriminate]. cbn [bind] in Y2. destruct (hist (map (fun r => snd (fst r)) rw)) as [g|]; [|discriminate]. cbn [bind] in Y2. destruct (hist (map (fun r => snd r) rw)) as [g'|]; [|discriminate]. cbn [bind] in Y2. injection Y2 as <-.
    exists rw, n, m, w. rewrite !nth_error_map, Y1. auto.
  - cbv zeta. set (x := map (fun l => ln (IZR l / pivot)) lams). assert (D : 0 < INR (List.length x) * dotR x x - sumR x * sumR x). { pose proof (lam_det pivot testing P) as D. cbv zeta in D. replace (lambdas (nlambdas testing)) with lams in D by (destruct testing; reflexivity). exact D. }
    assert (LX1 : List.length x = List.length (map fst fits)) by (unfold x; rewrite !map_length; lia). assert (LX2 : List.length x = List.length (map snd fits)) by (unfold x; rewrite !map_length; lia).
    assert (G : forall ys a b, List.length x = List.length ys -> (forall i l m, nth_error lams i = Some l -> nth_error ys i = Some m -> m = a + b * ln (IZR l / pivot)) -> polyfit1 x ys = (a, b)).
    { intros ys a b LY Hy. apply fit_exact; [exact LY|exact D|]. cbn [fst snd]. clear -LY Hy. unfold x in *. clear x. revert ys LY Hy. induction lams as [|l ls IH]; intros [|y ys] LY Hy; cbn in LY; try discriminate; [constructor|]. constructor; [apply (Hy 0%nat l y); reflexivity|]. apply IH; [injection LY as LY; exact LY|]. intros i. apply (Hy (S i)). }
    split; [intros q; pose proof (proj1 (fit_best x (map fst fits) q LX1 D)) as Bq; fold x in EM; rewrite <- EM in Bq; destruct M; exact Bq|]. split; [intros q; pose proof (proj1 (fit_best x (map snd fits) q LX2 D)) as Bq; fold x in EW; rewrite <- EW in Bq; destruct W; exact Bq|]. split.
    + intros a b mstar lam Hy. unfold bright_mean. cbn [p_m p_slope]. fold x in EM. rewrite EM, (G _ a b LX1 Hy). cbn. ring.
    + intros a b lam Hy. unfold bright_width. cbn [p_sig_m p_sig_slope]. fold x in EW. rewrite EW, (G _ a b LX2 Hy). cbn. ring.
Qed.
Print Assumptions C177_line.
(** With enough galaxies and a fit that never fails there is always a result. *)
Theorem C177_total hist pivot testing mag sts : (3 <= List.length mag)%nat -> (forall st, In st sts -> Permutation st (seq 0 (List.length mag))) -> (forall l, exists r, hist l = Ok r) ->
  exists p, montecarlo hist pivot testing mag sts = Ok p.
Proof.
  intros N S H. unfold montecarlo. cbv zeta. assert (T : forall (A B : Type) (f : A -> res B) l, (forall x, In x l -> exists y, f x = Ok y) -> exists r, mapM f l = Ok r).
  { intros A B f l. induction l as [|x l IH]; intros G; [eexists; reflexivity|]. cbn [mapM]. destruct (G x (or_introl eq_refl)) as [y ->]. cbn [bind]. destruct IH as [r ->]; [intros z I; apply G; right; exact I|]. eexists. reflexivity. }
  destruct (T _ _ (fun lam => mapM (trial mag lam) sts) (lambdas (nlambdas testing))) as [rows ->].
  { intros lam I. apply T. intros st J. apply (proj1 (lam_list testing)) in I. destruct (C177_three mag lam st (S st J) ltac:(lia) N) as (a & b & c & E & _). eauto. }
  cbn [bind]. destruct (T _ _ (lam_fits hist) rows) as [fits ->]; [|eexists; reflexivity]. intros rw _. unfold lam_fits. destruct (H (map (fun r => fst (fst r)) rw)) as [f1 ->]. cbn [bind]. destruct (H (map (fun r => snd (fst r)) rw)) as [f2 ->]. cbn [bind]. destruct (H (map (fun r => snd r) rw)) as [f3 ->]. eexists. reflexivity.
Qed.
Print Assumptions C177_total.
(** Finding: the fits to the second and the third brightest galaxies are not used, but one that fails (C153) stops the calibration. *)
Theorem C177_unused_refuted hist hist' pivot testing mag sts p e rows : mapM (trial mag 20) sts = Ok rows ->
  (forall l, l <> map (fun r => snd r) rows -> hist' l = hist l) -> hist' (map (fun r => snd r) rows) = Err e ->
  montecarlo hist pivot testing mag sts = Ok p -> exists e', montecarlo hist' pivot testing mag sts = Err e'.
Proof.
  intros R A B H. unfold montecarlo in *. cbv zeta in *. destruct (mapM (fun lam => mapM (trial mag lam) sts) (lambdas (nlambdas testing))) as [rs|] eqn:M; [|discriminate]. cbn [bind] in *.
  assert (I : In rows rs). { apply mapM_ok in M. destruct (lam_list testing) as (_ & L & _). destruct (lambdas (nlambdas testing)) as [|l ls]; [discriminate|]. injection L as ->. inversion M as [|? y ? ys E]; subst. rewrite R in E. injection E as ->. left. reflexivity. }
  assert (E : exists e', lam_fits hist' rows = Err e'). { unfold lam_fits. destruct (hist' (map (fun r => fst (fst r)) rows)); cbn [bind]; [|eauto]. destruct (hist' (map (fun r => snd (fst r)) rows)); cbn [bind]; [|eauto]. rewrite B. cbn. eauto. }
  destruct E as [e' E]. destruct (mapM_err (lam_fits hist') rs rows e' I E) as [e2 ->]. cbn [bind]. eauto.
Qed.
Print Assumptions C177_unused_refuted.
Example C177_example : trial [1; 5; 2; 4; 3] 5 [1; 3; 4; 2; 0]%nat = Ok (2, 3, 4).
Proof.
  unfold trial. change (Z.to_nat (5 - 1)) with 4%nat. cbn [firstn mapM at_index nth_error bind]. cbn [sortR insertR]. repeat match goal with |- context [Rle_dec ?a ?b] => destruct (Rle_dec a b); [try (exfalso; lra)|try (exfalso; lra)]; cbn [insertR] end. reflexivity.
Qed.
