(** C190: redshifts against spectroscopy *)
From Coq Require Import QArith Qabs Qround.
From Verif.Base Require Import Py PyLemmas.
From Verif.Model Require Import Maskgals Util PlotSpec.
From Verif.Proofs Require Maskgals RedCal.
From Verif.Spec Require Import PlotSpec.
From Verif.Proofs Require Import PlotSpec.
From Coq Require Import Lqa Lia List. Import ListNotations.
Local Open Scope Q_scope.

(** A median is one: at least half of the values are at or below it, at least half at or above it. *)
Theorem C190_median l : l <> [] -> (length l <= 2 * length (filter (fun x => Qle_bool x (medianQ l)) l))%nat /\ (length l <= 2 * length (filter (fun x => Qle_bool (medianQ l) x) l))%nat.
Proof. exact (median_halves l). Qed.
Print Assumptions C190_median.

(** When every member with a redshift belongs to a cluster of the catalogue and the first cluster has such a member, each cluster gets the median
    redshift of its members, 0 without any.  Missing: other members (C190_foreign_refuted), first clusters without members (C190_shifted_refuted). *)
Theorem C190_members_partial cat ms id0 rest : cat = id0 :: rest -> NoDup cat -> (forall m, In m ms -> 0 < snd m -> In (fst m) cat) ->
  (exists m, In m ms /\ 0 < snd m /\ fst m = id0) -> member_medians cat ms = Ok (map (should ms) cat).
Proof.
  intros E ND ALL [m [M [P F]]]. assert (W : In m (with_spec ms)) by (apply filter_In; split; [exact M | apply Qlt_bool_iff; exact P]).
  destruct (medians_shifted cat ms 0 id0 ND) as [out [O [L [A _]]]].
  - intros x X. apply filter_In in X. destruct X as [X Y]. apply ALL; [exact X | apply Qlt_bool_iff; exact Y].
  - rewrite E. reflexivity.
  - exists m. auto.
  - intros i id I. lia.
  - rewrite O. f_equal. apply nth_error_ext. intros i. rewrite nth_error_map. destruct (nth_error cat i) as [id|] eqn:N.
    + cbn [option_map]. apply A. exact N.
    + apply nth_error_None in N. cbn. apply nth_error_None. lia.
Qed.
Print Assumptions C190_members_partial.
(** Finding: the bins of the histogram start at the first cluster with a member, but are written from the first cluster on: with k clusters without
    a member at the front, every cluster is shown with the redshift of the cluster k places further down, and the last k with 0. *)
Theorem C190_shifted_refuted cat ms k idk : NoDup cat -> (forall m, In m ms -> 0 < snd m -> In (fst m) cat) -> nth_error cat k = Some idk ->
  (exists m, In m ms /\ 0 < snd m /\ fst m = idk) -> (forall i id, (i < k)%nat -> nth_error cat i = Some id -> forall m, In m ms -> 0 < snd m -> fst m <> id) ->
  exists out, member_medians cat ms = Ok out /\ length out = length cat /\ (forall i id, nth_error cat (k + i) = Some id -> nth_error out i = Some (should ms id)) /\
    (forall i, (length cat <= k + i)%nat -> (i < length cat)%nat -> nth_error out i = Some 0).
Proof.
  intros ND ALL N [m [M [P F]]] LOW. apply (medians_shifted cat ms k idk ND); [| exact N | |].
  - intros x X. apply filter_In in X. destruct X as [X Y]. apply ALL; [exact X | apply Qlt_bool_iff; exact Y].
  - exists m. split; [|exact F]. apply filter_In; split; [exact M | apply Qlt_bool_iff; exact P].
  - intros i id I J x X. apply filter_In in X. destruct X as [X Y]. apply (LOW i id I J x X), Qlt_bool_iff, Y.
Qed.
Print Assumptions C190_shifted_refuted.
(** Finding: rows of the match are taken for rows of the member table (line 115), so one member of no cluster of the catalogue (its cluster was cut for
    its richness) gives the clusters behind it the redshifts of other members. *)
Theorem C190_foreign_refuted z9 z1 z2 : 0 < z9 -> 0 < z1 -> 0 < z2 -> exists v w, member_medians [1; 2]%Z [(9%Z, z9); (1%Z, z1); (2%Z, z2)] = Ok [v; w] /\ v == z9 /\ w == z1.
Proof.
  intros A B C. unfold member_medians, with_spec. cbn [filter snd fst]. rewrite (proj2 (Qlt_bool_iff 0 z9) A), (proj2 (Qlt_bool_iff 0 z1) B), (proj2 (Qlt_bool_iff 0 z2) C).
  cbn. exists (medianQ [z9]), (medianQ [z1]). split; [reflexivity|]. split; apply median_const; try discriminate; intros x [<-|[]]; reflexivity.
Qed.
Print Assumptions C190_foreign_refuted.
(** Without a member that has a redshift and a cluster, or with an empty catalogue or repeated ids, there is an error. *)
Theorem C190_members_error cat ms : (forall m, In m ms -> 0 < snd m -> ~ In (fst m) cat) \/ ~ NoDup cat -> member_medians cat ms = Err ValueError.
Proof.
  intros H. unfold member_medians, eu_match. cbv zeta. destruct (_ || _)%bool; [reflexivity|]. destruct (nodupZ cat) eqn:D; [|reflexivity]. cbn [bind]. rewrite match_from_fst.
  destruct H as [H|H]; [|elim H; apply nodupZ_iff; exact D].
  destruct (flat_map _ _) as [|i l] eqn:E; [reflexivity|]. assert (I : In i (i :: l)) by (left; reflexivity). rewrite <- E in I.
  apply in_flat_map in I. destruct I as [y [Y I]]. apply in_map_iff in Y. destruct Y as [m [<- M]]. apply filter_In in M. destruct M as [M P].
  elim (H m M); [apply Qlt_bool_iff; exact P|]. destruct (index_ofZ (fst m) cat) eqn:X; [|destruct I]. apply index_ofZ_nth in X. apply nth_error_In in X. exact X.
Qed.
Print Assumptions C190_members_error.

(** The fraction of outliers counts the rows with a spectroscopic redshift whose redshift is off by more than nsig errors, over all with one. *)
Theorem C190_outliers nsig l f : (forall r, In r l -> 0 < r_err r) -> fracout nsig l = Ok f ->
  0 <= f <= 1 /\ exists u o, (forall r, In r u <-> In r l /\ 0 < r_spec r) /\ (forall r, In r o <-> In r u /\ nsig * r_err r < Qabs (r_phot r - r_spec r)) /\
    (length o <= length u)%nat /\ (length u <= length l)%nat /\ f * Qn (length u) == Qn (length o).
Proof.
  intros P H. unfold fracout in H. destruct (used l) as [|a u] eqn:E; [discriminate|]. set (U := a :: u) in *. injection H as <-.
  assert (N : 0 < Qn (length U)). { unfold Qn. change 0 with (inject_Z 0). rewrite <- Zlt_Qlt. unfold U. cbn [length]. lia. }
  assert (LE : (length (filter (is_out nsig) U) <= length U)%nat) by (clear; induction U as [|x t IH]; cbn; [lia|]; destruct (is_out nsig x); cbn; lia).
  assert (LU : (length U <= length l)%nat) by (rewrite <- E; unfold used; clear; induction l as [|x t IH]; cbn; [lia|]; destruct (Qlt_bool 0 (r_spec x)); cbn; lia).
  split.
  - split.
    + apply Qle_shift_div_l; [exact N|]. rewrite Qmult_0_l. unfold Qn. change 0 with (inject_Z 0). rewrite <- Zle_Qle. apply Nat2Z.is_nonneg.
    + apply Qle_shift_div_r; [exact N|]. rewrite Qmult_1_l. unfold Qn. rewrite <- Zle_Qle. apply inj_le. exact LE.
  - exists U, (filter (is_out nsig) U). split; [|split; [|split; [exact LE|split; [exact LU|]]]].
    + intros r. rewrite <- E. unfold used. rewrite filter_In, Qlt_bool_iff. reflexivity.
    + intros r. rewrite filter_In. split; intros [A B]; (split; [exact A|]); assert (R : In r l) by (rewrite <- E in A; apply filter_In in A; apply A); specialize (P r R).
      * apply Qlt_bool_iff in B. unfold is_out in B. set (x := Qabs (r_phot r - r_spec r)) in *. setoid_replace x with (x / r_err r * r_err r) by (field; lra). apply Qmult_lt_compat_r; assumption.
      * unfold is_out. apply Qlt_bool_iff. apply Qlt_shift_div_l; assumption.
    + rewrite Qmult_comm. apply Qmult_div_r. intros X. exact (Qlt_not_eq _ _ N (Qeq_sym _ _ X)).
Qed.
Print Assumptions C190_outliers.
(** Finding: a catalogue without a single spectroscopic redshift makes no plot but a ValueError, in the consolidation after the catalogues are written. *)
Theorem C190_no_spec_refuted nsig l : fracout nsig l = Err ValueError <-> (forall r, In r l -> r_spec r <= 0).
Proof.
  unfold fracout. destruct (used l) as [|a u] eqn:E; split; intros H; try reflexivity; try discriminate.
  - intros r R. destruct (Qlt_le_dec 0 (r_spec r)) as [G|G]; [|exact G]. assert (I : In r (used l)) by (apply filter_In; split; [exact R | apply Qlt_bool_iff; exact G]). rewrite E in I. destruct I.
  - assert (I : In a (used l)) by (rewrite E; left; reflexivity). apply filter_In in I. destruct I as [I G]. apply Qlt_bool_iff in G. specialize (H a I). lra.
Qed.
Print Assumptions C190_no_spec_refuted.

(** Every redshift up to 0.001 below the largest is in exactly one bin, within half a bin of its center. *)
Theorem C190_bins zmax bs r : 0 < bs -> 0 <= r_phot r -> r_phot r <= zmax - (1 # 1000) ->
  exists j, (j < nbins zmax bs)%nat /\ in_bin zmax bs j r = true /\ (forall i, in_bin zmax bs i r = true -> i = j) /\ Qabs (r_phot r - center bs j) <= bs / 2.
Proof.
  intros B P T. set (q := (r_phot r - 0) / bs). assert (Q0 : 0 <= q) by (unfold q; apply Qle_shift_div_l; lra).
  assert (QT : q <= (top zmax - 0) / bs). { unfold q, top, Qdiv. apply Qmult_le_compat_r; [lra|]. apply Qlt_le_weak, Qinv_lt_0_compat, B. }
  assert (F0 : (0 <= Qtrunc q)%Z). { rewrite Util.Qtrunc_floor by exact Q0. change 0%Z with (Qfloor 0). apply Qfloor_resp_le. exact Q0. }
  assert (FT : (Qtrunc q <= Qtrunc ((top zmax - 0) / bs))%Z). { rewrite !Util.Qtrunc_floor; [apply Qfloor_resp_le; exact QT | eapply Qle_trans; eassumption | exact Q0]. }
  assert (INB : forall j, in_bin zmax bs j r = (Z.eqb (Qtrunc q) (Z.of_nat j))).
  { intros j. unfold in_bin, top. rewrite (proj2 (Qle_bool_iff 0 (r_phot r)) P), (proj2 (Qle_bool_iff _ _) T). reflexivity. }
  exists (Z.to_nat (Qtrunc q)). split; [unfold nbins; lia|]. split; [rewrite INB; apply Z.eqb_eq; lia|]. split; [intros i; rewrite INB, Z.eqb_eq; lia|].
  assert (H := proj1 (RedCal.trunc_bin 0 bs (r_phot r) (Z.to_nat (Qtrunc q)) B P)). fold q in H.
  destruct H as [H1 H2]; [apply Z.eqb_eq; lia|]. rewrite RedCal.Qn_S in H2. unfold center. apply Qabs_Qle_condition. set (k := Qn (Z.to_nat (Qtrunc q))) in *.
  assert (bs / 2 == bs * (1#2)) by field. split; lra.
Qed.
Print Assumptions C190_bins.

(** The bias of a bin is a median of the differences and so between the least and the largest; an offset common to all is found exactly, with no scatter;
    the scatter is never negative. *)
Theorem C190_bias l : (3 <= length l)%nat -> forall lo hi, (forall r, In r l -> lo <= r_spec r - r_phot r <= hi) ->
  lo <= t_bias (bin_stat l) <= hi /\ 0 <= t_scatter (bin_stat l) <= (14862 # 10000) * (hi - lo).
Proof.
  intros N lo hi H. unfold bin_stat. destruct (Nat.ltb_spec (length l) 3) as [L|_]; [lia|]. cbn [t_bias t_scatter].
  set (dz := map (fun r => r_spec r - r_phot r) l). assert (D : dz <> []) by (unfold dz; destruct l; [cbn in N; lia | discriminate]).
  assert (W : forall d, In d dz -> lo <= d <= hi) by (intros d I; apply in_map_iff in I; destruct I as [r [<- R]]; apply H; exact R).
  pose proof (Maskgals.median_within dz lo hi D W) as B. split; [exact B|].
  set (m := medianQ dz) in *. assert (D' : map (fun d => Qabs (d - m)) dz <> []) by (destruct dz; [congruence|discriminate]).
  assert (W' : forall x, In x (map (fun d => Qabs (d - m)) dz) -> 0 <= x <= hi - lo).
  { intros x I. apply in_map_iff in I. destruct I as [d [<- I]]. specialize (W d I). split; [apply Qabs_nonneg|]. apply Qabs_Qle_condition. lra. }
  pose proof (Maskgals.median_within _ 0 (hi - lo) D' W') as S. lra.
Qed.
Print Assumptions C190_bias.
Theorem C190_offset l c : (3 <= length l)%nat -> (forall r, In r l -> r_spec r == r_phot r + c) -> t_bias (bin_stat l) == c /\ t_scatter (bin_stat l) == 0.
Proof. intros N H. destruct (C190_bias l N c c) as [A B]; [intros r R; rewrite (H r R); lra|]. lra. Qed.
Print Assumptions C190_offset.
(** The error of a bin is between the least and the largest of its rows. *)
Theorem C190_error l lo hi : (3 <= length l)%nat -> (forall r, In r l -> lo <= r_err r <= hi) -> lo <= t_err (bin_stat l) <= hi.
Proof.
  intros N H. unfold bin_stat. destruct (Nat.ltb_spec (length l) 3) as [L|_]; [lia|]. cbn [t_err]. apply Maskgals.median_within; [destruct l; [cbn in N; lia|discriminate]|].
  intros x I. apply in_map_iff in I. destruct I as [r [<- R]]. apply H; exact R.
Qed.
Print Assumptions C190_error.
(** Finding: the factor from the median deviation to a standard deviation is mistyped, 1.4862 for 1.4826: the scatter is too large by 0.24 per cent
    whenever there is any. *)
Theorem C190_factor_refuted l : (3 <= length l)%nat -> (t_scatter (bin_stat l) == (14826 # 10000) * mad (map (fun r => r_spec r - r_phot r) l) <-> mad (map (fun r => r_spec r - r_phot r) l) == 0).
Proof. intros N. unfold bin_stat. destruct (Nat.ltb_spec (length l) 3) as [L|_]; [lia|]. cbn [t_scatter]. unfold mad. split; intros H; lra. Qed.
Print Assumptions C190_factor_refuted.
(** Finding: a bin of fewer than three rows, or none, is drawn as one without bias, scatter and error. *)
Theorem C190_few_refuted l : (length l < 3)%nat -> bin_stat l = mkStat 0 0 0.
Proof. intros H. unfold bin_stat. destruct (Nat.ltb_spec (length l) 3); [reflexivity|lia]. Qed.
Print Assumptions C190_few_refuted.
(** The lower panel has a point for each bin, from the rows of that bin which have a spectroscopic redshift. *)
Theorem C190_panel zmax bs l : length (bias_scatter zmax bs l) = nbins zmax bs /\ forall j, (j < nbins zmax bs)%nat -> exists b c,
  nth_error (bias_scatter zmax bs l) j = Some (c, bin_stat b) /\ c == (Qn j + (1 # 2)) * bs /\ (forall r, In r b <-> In r l /\ 0 < r_spec r /\ in_bin zmax bs j r = true) /\
  (length b <= length l)%nat.
Proof.
  unfold bias_scatter. split; [rewrite map_length, seq_length; reflexivity|]. intros j J. exists (filter (in_bin zmax bs j) (used l)), (center bs j).
  split; [|split; [|split]].
  - rewrite nth_error_map, nth_error_nth' with (d := 0%nat) by (rewrite seq_length; exact J). rewrite seq_nth by exact J. reflexivity.
  - unfold center. field.
  - intros r. unfold used. rewrite !filter_In, Qlt_bool_iff. tauto.
  - unfold used. clear. induction l as [|x t IH]; cbn; [lia|]. destruct (Qlt_bool 0 (r_spec x)); cbn; [destruct (in_bin zmax bs j x); cbn|]; lia.
Qed.
Print Assumptions C190_panel.

(** The coarse bins of the contour map take each redshift from the least up to the largest, but not the largest, exactly once. *)
Theorem C190_coarse_partial zmin zmax n z : (0 < n)%nat -> zmin <= z -> z < zmax -> exists i, (i < n)%nat /\ in_coarse zmin zmax n i z = true /\ forall j, in_coarse zmin zmax n j z = true -> j = i.
Proof.
  intros N A B. set (w := (zmax - zmin) / Qn n). assert (NP : 0 < Qn n) by (unfold Qn; change 0 with (inject_Z 0); rewrite <- Zlt_Qlt; lia).
  assert (W : 0 < w) by (unfold w; apply Qlt_shift_div_l; lra). assert (E : Qn n * w == zmax - zmin) by (unfold w; field; lra).
  assert (IN : forall j, in_coarse zmin zmax n j z = true <-> (Qtrunc ((z - zmin) / w) =? Z.of_nat j)%Z = true).
  { intros j. rewrite (RedCal.trunc_bin zmin w z j W A). unfold in_coarse. fold w. rewrite andb_true_iff, Qle_bool_iff, Qlt_bool_iff, RedCal.Qn_S. split; intros [X Y]; split; lra. }
  assert (Q0 : 0 <= (z - zmin) / w) by (apply Qle_shift_div_l; lra).
  assert (T0 : (0 <= Qtrunc ((z - zmin) / w))%Z). { rewrite Util.Qtrunc_floor by exact Q0. change 0%Z with (Qfloor 0). apply Qfloor_resp_le. exact Q0. }
  exists (Z.to_nat (Qtrunc ((z - zmin) / w))). split; [|split].
  - assert (H : (Qtrunc ((z - zmin) / w) < Z.of_nat n)%Z); [|lia]. rewrite Util.Qtrunc_floor by exact Q0. rewrite Zlt_Qlt. eapply Qle_lt_trans; [apply Qfloor_le|].
    apply Qlt_shift_div_r; [exact W|]. change (inject_Z (Z.of_nat n)) with (Qn n). lra.
  - apply IN. apply Z.eqb_eq. lia.
  - intros j J. apply IN in J. apply Z.eqb_eq in J. lia.
Qed.
Print Assumptions C190_coarse_partial.
(** Finding: the object with the largest redshift is in none of the coarse bins. *)
Theorem C190_coarse_refuted zmin zmax n i : (0 < n)%nat -> zmin <= zmax -> (i < n)%nat -> in_coarse zmin zmax n i zmax = false.
Proof.
  intros N A I. set (w := (zmax - zmin) / Qn n). assert (NP : 0 < Qn n) by (unfold Qn; change 0 with (inject_Z 0); rewrite <- Zlt_Qlt; lia).
  assert (W : 0 <= w) by (unfold w; apply Qle_shift_div_l; lra). assert (E : Qn n * w == zmax - zmin) by (unfold w; field; lra).
  unfold in_coarse. fold w. apply andb_false_intro2. apply Qlt_bool_false.
  assert (L : Qn i + 1 <= Qn n) by (rewrite <- RedCal.Qn_S; unfold Qn; rewrite <- Zle_Qle; lia).
  assert ((Qn i + 1) * w <= Qn n * w) by (apply Qmult_le_compat_r; assumption). lra.
Qed.
Print Assumptions C190_coarse_refuted.

Definition C190_rows : list row := [mkRow (31#100) (30#100) (1#100); mkRow (30#100) (30#100) (1#100); mkRow (32#100) (31#100) (1#100); mkRow (-1) (50#100) (1#100); mkRow (60#100) (50#100) (1#100)].
Example C190_ex :
  (exists v w, member_medians [7; 8]%Z [(7%Z, 3#10); (8%Z, 1#2); (7%Z, 5#10); (7%Z, - (1))] = Ok [v; w] /\ v == 4#10 /\ w == 1#2) /\
  (exists v w, member_medians [7; 8; 9]%Z [(8%Z, 3#10); (9%Z, 1#2)] = Ok [v; w; 0] /\ v == 3#10 /\ w == 1#2) /\
  (exists f, fracout 4 C190_rows = Ok f /\ f == 1#4) /\
  t_bias (bin_stat (filter (in_bin (6#10) (1#10) 3) (used C190_rows))) == 1#100.
Proof. repeat split; try (eexists; eexists; split; [vm_compute; reflexivity | split; reflexivity]); try (eexists; split; [vm_compute; reflexivity | reflexivity]); vm_compute; reflexivity. Qed.
