(** C176: the galaxies, redshift ranges and start values of the redMaGiC calibration. *)
From Coq Require Import Reals Lra.
From Verif.Base Require Import Py PyLemmas.
From Verif.Model Require Import BkgGen Depth ErrBin RedSamp.
From Verif.Spec Require Import RedSamp.
From Verif.Proofs Require Import BkgGen Solver Depth ErrBin RedSamp.
From Coq Require Import Lia List Permutation Sorting.Sorted. Import ListNotations.
Local Open Scope R_scope.

(** The redshift range of a fit begins the buffer above the lower end, is a whole number of bins, and ends between the buffer below the upper end and one bin more. *)
Theorem C176_range k hi : 0 < c_bin k -> fst (cost_range k hi) = c_lo k + c_buf k /\ hi - c_buf k <= snd (cost_range k hi) < hi - c_buf k + c_bin k /\
  exists n, snd (cost_range k hi) - fst (cost_range k hi) = IZR n * c_bin k.
Proof. apply cost_spec. Qed.
Print Assumptions C176_range.
(** A galaxy is kept exactly if it is within 0.05 (and the rounding of the range) of the redshift range, below the largest chi-squared, and brighter than 0.05 below the
    faintest of the runs' luminosities, and than 0.1; without any, and without runs, the calibration stops. *)
Theorem C176_kept mstar k rs gals : (rs = [] -> cut_gals mstar k rs gals = Err ValueError) /\
  (rs <> [] -> exists eta, (exists r, In r rs /\ r_eta r = eta) /\ (forall r, In r rs -> eta <= r_eta r) /\
     let keeps g := c_lo k - 5/100 < s_z g < snd (cost_range k (c_hi k)) + 5/100 + c_buf k /\ s_chisq g < c_chi k /\ bright mstar eta g in
     ((forall g, In g gals -> ~ keeps g) -> cut_gals mstar k rs gals = Err RuntimeError) /\
     ((exists g, In g gals /\ keeps g) -> exists use, cut_gals mstar k rs gals = Ok use /\ (forall g, In g use <-> In g gals /\ keeps g) /\ exists b, use = filter b gals)).
Proof.
  split; [intros ->; reflexivity|]. intros N. destruct rs as [|r t] eqn:Er; [congruence|]. rewrite <- Er in *. destruct (min_eta rs) as [m|] eqn:M; [|rewrite Er in M; discriminate]. exists m. destruct (min_eta_spec rs m M) as [A B]. split; [exact A|]. split; [exact B|].
  cbv zeta. unfold cut_gals. rewrite M. cbn [bind]. split.
  - intros H. destruct (filter _ gals) as [|g use] eqn:F; [reflexivity|]. exfalso. assert (I : In g (filter (may_be mstar k (cushioned m)) gals)) by (rewrite F; left; reflexivity). apply filter_In in I as [I J]. apply may_iff in J. exact (H g I J).
  - intros (g & I & J). exists (filter (may_be mstar k (cushioned m)) gals). split; [|split; [intros x; rewrite filter_In, may_iff; reflexivity|exists (may_be mstar k (cushioned m)); reflexivity]].
    destruct (filter _ gals) as [|x use] eqn:F; [|reflexivity]. exfalso. assert (X : In g (filter (may_be mstar k (cushioned m)) gals)) by (apply filter_In; split; [exact I|apply may_iff, J]). rewrite F in X. destruct X.
Qed.
Print Assumptions C176_kept.
(** No galaxy of a run is lost: those within its redshifts, bright enough for it and below the largest chi-squared are all kept, and are among its candidates. (Partial: runs whose largest
    redshift is not above the end of the range.) *)
Theorem C176_runs_partial mstar k rs gals r g : 0 < c_bin k -> In r rs -> r_zmax r <= c_hi k -> In g gals -> of_run mstar k r g ->
  exists use, cut_gals mstar k rs gals = Ok use /\ In g (red_poss mstar r use).
Proof.
  intros B I Z G ((Z1 & Z2) & C & L). assert (N : rs <> []) by (intros ->; destruct I). destruct (proj2 (C176_kept mstar k rs gals) N) as (eta & _ & Emin & _ & K). cbv zeta in K. specialize (Emin r I).
  destruct (cost_spec k (c_hi k) B) as (_ & [R1 _] & _). destruct K as (use & U & W & _).
  { exists g. split; [exact G|]. split; [lra|]. split; [exact C|]. unfold bright in *. lra. }
  exists use. split; [exact U|]. unfold red_poss. apply filter_In. split; [|apply bright_iff, L]. apply W. split; [exact G|]. split; [lra|]. split; [exact C|]. unfold bright in *. lra.
Qed.
Print Assumptions C176_runs_partial.
(** The candidates of a run are those of the kept galaxies that are bright enough for it, and no others. *)
Theorem C176_candidates mstar r gals g : In g (red_poss mstar r gals) <-> In g gals /\ bright mstar (r_eta r) g.
Proof. unfold red_poss. rewrite filter_In, bright_iff. reflexivity. Qed.
Print Assumptions C176_candidates.
(** Finding: the galaxies are cut with the upper end of the common range, not with the largest redshifts of the runs.  In a run that goes further, the galaxies more than 0.05 and one bin beyond that end are all
    missing. *)
Theorem C176_beyond_refuted mstar k rs gals use g : 0 < c_bin k -> cut_gals mstar k rs gals = Ok use -> c_hi k + 5/100 + c_bin k <= s_z g -> ~ In g use.
Proof.
  intros B U Z I. unfold cut_gals in U. destruct (min_eta rs) as [m|]; [|discriminate]. cbn [bind] in U. destruct (filter _ gals) as [|x t] eqn:F; [discriminate|]. injection U as <-. rewrite <- F in I. apply filter_In in I as [_ I]. apply may_iff in I as ((_ & I) & _).
  destruct (cost_spec k (c_hi k) B) as (_ & [_ R] & _). lra.
Qed.
Print Assumptions C176_beyond_refuted.
(** The start value of the cut at a node is the chi-squared of a galaxy near the node such that the galaxies below it have the density that is asked for, to one galaxy, or that of the
    last galaxy if there are too few. *)
Theorem C176_start k r shell nodes gals : (forall z, In z nodes -> 0 < shell z) ->
  let near j g := fst (window (c_bin k) nodes j) < s_z g < snd (window (c_bin k) nodes j) in
  (forall j, (j < List.length nodes)%nat -> exists g, In g gals /\ near j g) ->
  exists cs, start_vals k r None shell nodes gals = Ok cs /\ List.length cs = List.length nodes /\
    forall j, (j < List.length nodes)%nat -> exists c chis i, nth_error cs j = Some c /\ StronglySorted Rle chis /\ (forall x, In x chis <-> exists g, In g gals /\ near j g /\ s_chisq g = x) /\
      nth_error chis i = Some c /\ (i = 0%nat \/ (INR i - 1) / shell (nth j nodes 0) < r_n0 r / 10000) /\ (r_n0 r / 10000 <= INR i / shell (nth j nodes 0) \/ S i = List.length chis).
Proof.
  intros V near H. unfold start_vals.
  assert (G : forall j, (j < List.length nodes)%nat -> exists c chis i, start_at k r shell nodes gals j = Ok c /\ StronglySorted Rle chis /\ (forall x, In x chis <-> exists g, In g gals /\ near j g /\ s_chisq g = x) /\
      nth_error chis i = Some c /\ (i = 0%nat \/ (INR i - 1) / shell (nth j nodes 0) < r_n0 r / 10000) /\ (r_n0 r / 10000 <= INR i / shell (nth j nodes 0) \/ S i = List.length chis)).
  { intros j J. unfold start_at. cbv zeta. set (w := window (c_bin k) nodes j). set (l := map s_chisq _).
    assert (X : forall x, In x l <-> exists g, In g gals /\ near j g /\ s_chisq g = x).
    { intros x. unfold l. rewrite in_map_iff. split; intros (g & A); [destruct A as [<- I]; apply filter_In in I as [I F]; exists g; split; [exact I|]|destruct A as (I & F & <-); exists g; split; [reflexivity|]; apply filter_In; split; [exact I|]].
      - apply Bool.andb_true_iff in F as [F1 F2]. apply Rltb_iff in F1, F2. split; [split; assumption|reflexivity].
      - destruct F as [F1 F2]. apply Bool.andb_true_iff. split; apply Rltb_iff; assumption. }
    assert (P : 0 < shell (nth j nodes 0)) by (apply V, nth_In, J). set (v := shell (nth j nodes 0)) in *.
    destruct (start_spec v (r_n0 r) l P) as (i & c & S1 & S2 & S3 & S4). { intros E. destruct (H j J) as (g & I & N). assert (Y : In (s_chisq g) l) by (apply X; eauto). rewrite E in Y. destruct Y. }
    exists c, (sortR l), i. split; [exact S1|]. split; [apply sortR_sorted|]. split; [intros x; rewrite <- X; split; apply Permutation_in; [apply sortR_perm|apply Permutation_sym, sortR_perm]|]. split; [exact S2|].
    assert (D : forall a b, a < b * v <-> a / v < b). { intros a b. assert (E : a / v * v = a) by (field; lra). split; intros Q; nra. }
    assert (D' : forall a b, b * v <= a <-> b <= a / v). { intros a b. assert (E : a / v * v = a) by (field; lra). split; intros Q; nra. }
    rewrite sortR_len. split; [destruct S3 as [S3|S3]; [left; exact S3|right; apply D, S3]|destruct S4 as [S4|S4]; [left; apply D', S4|right; exact S4]]. }
  destruct (mapN_ok (start_at k r shell nodes gals) (List.length nodes) 0) as (cs & C & L & N); [intros j [_ J]; destruct (G j J) as (c & _ & _ & E & _); eauto|].
  exists cs. split; [exact C|]. split; [exact L|]. intros j J. destruct (N j J) as (x & N1 & N2). destruct (G j J) as (c & chis & i & E & R). exists c, chis, i. split; [cbn [plus] in N2; congruence|exact R].
Qed.
Print Assumptions C176_start.
(** Finding: a node without any galaxy about it stops the calibration, with an IndexError, although the galaxies elsewhere were enough; with a constant chi-squared there is no such error. *)
Theorem C176_empty_refuted k r shell nodes gals j c : (j < List.length nodes)%nat -> (forall g, In g gals -> ~ (fst (window (c_bin k) nodes j) < s_z g < snd (window (c_bin k) nodes j))) ->
  start_vals k r None shell nodes gals = Err IndexError /\ start_vals k r (Some c) shell nodes gals = Ok (map (fun _ => c) nodes).
Proof.
  intros J H. split; [|reflexivity]. unfold start_vals. apply (mapN_err _ _ IndexError 0 j); [|lia|].
  - intros m e. unfold start_at, start_chi. cbv zeta. destruct (_ <? 0)%Z; [congruence|]. destruct (nth_error _ _); congruence.
  - unfold start_at. cbv zeta. assert (F : filter (fun g => (Rltb (fst (window (c_bin k) nodes j)) (s_z g) && Rltb (s_z g) (snd (window (c_bin k) nodes j)))%bool) gals = []).
    { destruct (filter _ gals) as [|g t] eqn:X; [reflexivity|]. exfalso. assert (I : In g (g :: t)) by (left; reflexivity). rewrite <- X in I. apply filter_In in I as [I Y]. apply Bool.andb_true_iff in Y as [Y1 Y2]. apply Rltb_iff in Y1, Y2. apply (H g I). split; assumption. }
    rewrite F. reflexivity.
Qed.
Print Assumptions C176_empty_refuted.
(** The galaxies about a node: half a bin to both sides, at the two ends one bin inwards. *)
Theorem C176_window bin nodes j : 0 < bin -> (2 <= List.length nodes)%nat -> let w := window bin nodes j in snd w - fst w = bin /\ fst w <= nth j nodes 0 <= snd w /\
  (j = 0%nat -> fst w = nth j nodes 0) /\ (S j = List.length nodes -> snd w = nth j nodes 0).
Proof.
  intros B L. cbv zeta. unfold window. destruct (Nat.eqb_spec j 0) as [->|D]; [cbn [fst snd]; repeat split; try lra; intros; lia|]. destruct (Nat.eqb_spec j (List.length nodes - 1)) as [E|E]; cbn [fst snd]; repeat split; try lra; intros; lia.
Qed.
Print Assumptions C176_window.
Definition ex_conf : sconf := mkSC (1/10) (5/10) (5/100) (2/100) 20.
Definition ex_run : srun := mkSR (5/10) (5/10) 10.
Example C176_example : of_run (fun _ => 18) ex_conf ex_run (mkSG (3/10) 2 18) /\ r_zmax ex_run <= c_hi ex_conf /\ 0 < c_bin ex_conf /\
  start_vals ex_conf ex_run None (fun _ => 1) [3/10] [mkSG (305/1000) 2 18] = Ok [2].
Proof.
  split; [|split; [cbn; lra|split; [cbn; lra|]]].
  - unfold of_run, bright, lum. cbn [c_lo r_zmax s_z s_chisq c_chi s_mag r_eta ex_conf ex_run]. replace ((18 - 18) * 4 / 10) with 0 by lra. rewrite Rpower_O by lra. lra.
  - unfold start_vals. cbn [List.length mapN]. unfold start_at. cbv zeta. cbn [window Nat.eqb nth c_bin ex_conf fst snd filter s_z].
    rewrite (proj2 (Rltb_iff (3/10) (305/1000))) by lra. rewrite (proj2 (Rltb_iff (305/1000) (3/10 + 2/100))) by lra. cbn [andb map s_chisq]. unfold start_chi. cbn [List.length seq map filter].
    rewrite (proj2 (Rltb_iff (INR 0 / 1) (r_n0 ex_run * (1/10000)))) by (cbn [INR r_n0 ex_run]; lra). reflexivity.
Qed.
