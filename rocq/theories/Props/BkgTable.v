(** C90-C93: the background tables and what is read back from them. *)
From Coq Require Import QArith Qround Qabs Lqa Sorting.Sorted.
From Verif.Base Require Import Py PyLemmas Fn.
From Verif.Model Require Import Util BkgTable.
From Verif.Spec Require Import BkgTable.
From Verif.Proofs Require Import Util BkgTable.
From Coq Require Import Lqa Lia List. Import ListNotations.
Local Open Scope nat_scope.

(** * C90 *)
(** C90, any bin sizes: each cell holds the sum over the galaxies of their shares in the cell, divided by the area and the
    configured bin sizes; the cells are [limmag - 12] and [chisq_max] divided into equal parts, as many as there are bins. *)
Theorem C90_cells : forall far chisq_max csize limmag msize zl areas pix,
  (0 < chisq_max)%Q -> (0 < csize)%Q -> (12 < limmag)%Q -> (0 < msize)%Q -> (chisq_max <= far)%Q ->
  let nc := Z.to_nat (Qceiling (chisq_max / csize)) in let nm := Z.to_nat (Qceiling ((limmag - 12) / msize)) in
  exists cut t, mag_cut 12 limmag msize zl = Ok cut /\ chisq_table far chisq_max csize limmag msize zl areas pix = Ok t /\ shape t nm nc /\
    forall m j, m < nm -> j < nc ->
      (cell t m j == Qsum (map (fun g => share 0 (chisq_max / inject_Z (Z.of_nat nc)) (g_chi g) j *
                                        share 12 ((limmag - 12) / inject_Z (Z.of_nat nm)) (g_mag g) m)
                              (filter (counted cut limmag chisq_max) (List.concat pix)))
                     / (nth m areas 0 * (msize * csize)))%Q.
Proof.
  intros far cmax cs lim ms zl areas pix Hc Hcs Hl Hms Hf nc nm.
  destruct (mag_cut_ok 12 lim ms zl Hl Hms) as (k & _ & _ & Ecut).
  set (cut := (inject_Z k * ms + 12 + ms)%Q) in *. exists cut.
  unfold chisq_table. change mag0 with 12%Q. rewrite Ecut. cbn [bind]. rewrite fill_all.
  destruct (table_spec 0 cmax cs 12 lim ms areas (fun m => Qle_bool 12 m && Qlt_bool m lim) (fun c => c) Hc Hl Hcs Hms) with
    (l := map (fun g => if used 12 cut g then g_chi g else far) (List.concat pix)) (r := map g_mag (List.concat pix)) as (t & E & Hs & Hv).
  { intros m H. apply andb_true_iff in H. destruct H as [H1 H2]. apply Qle_bool_iff in H1. apply Qlt_bool_iff in H2. auto. }
  { auto. }
  pose proof (nbins_pos 0 cmax cs Hc Hcs) as Nc. pose proof (nbins_pos 12 lim ms Hl Hms) as Nm.
  assert (Enc : Z.to_nat (nbins 0 cmax cs) = nc). { unfold nbins, nc. f_equal. apply Qceiling_comp. apply Qmult_comp; [ring|reflexivity]. }
  assert (Enm : Z.to_nat (nbins 12 lim ms) = nm) by reflexivity.
  exists t. split; [reflexivity|]. split; [exact E|]. rewrite Enc, Enm in Hs, Hv. split; [exact Hs|].
  intros m j Hm Hj. rewrite (Hv m j Hm Hj). apply Qmult_comp; [|reflexivity].
  rewrite combine_map2, filter_map_comm, map_map. cbn [fst snd].
  assert (Ef : filter (fun g => Qle_bool 0 (if used 12 cut g then g_chi g else far) && Qlt_bool (if used 12 cut g then g_chi g else far) cmax && (Qle_bool 12 (g_mag g) && Qlt_bool (g_mag g) lim)) (List.concat pix)
     = filter (counted cut lim cmax) (List.concat pix)).
  { apply filter_ext_in'. intros g _. unfold counted, used.
    destruct (Qlt_bool 12 (g_mag g)) eqn:E1, (Qlt_bool (g_mag g) cut) eqn:E2; cbn [andb].
    - assert (E3 : Qle_bool 12 (g_mag g) = true) by (apply Qle_bool_iff; apply Qlt_bool_iff in E1; lra). rewrite E3. cbn [andb].
      destruct (Qlt_bool (g_mag g) lim), (Qle_bool 0 (g_chi g)), (Qlt_bool (g_chi g) cmax); reflexivity.
    - assert (E3 : Qlt_bool far cmax = false) by (apply Qlt_bool_false; exact Hf). rewrite E3, andb_false_r. reflexivity.
    - assert (E3 : Qlt_bool far cmax = false) by (apply Qlt_bool_false; exact Hf). rewrite E3, andb_false_r. reflexivity.
    - assert (E3 : Qlt_bool far cmax = false) by (apply Qlt_bool_false; exact Hf). rewrite E3, andb_false_r. reflexivity. }
  rewrite Ef. apply Qsum_map_ext. intros g Hg. apply filter_In in Hg. destruct Hg as [_ Hg].
  assert (Hu : used 12 cut g = true) by (unfold counted in Hg; unfold used; destruct (Qlt_bool 12 (g_mag g)), (Qlt_bool (g_mag g) cut); cbn in *; congruence).
  rewrite Hu. assert (Ex : forall w w' x k, (w == w')%Q -> (0 < w)%Q -> (share 0 w x k == share 0 w' x k)%Q).
  { intros w w' x i Hw Hp. rewrite (share_overlap 0 w x (x / w) i Hp) by (field; lra). rewrite (share_overlap 0 w' x (x / w) i) by (lra || (rewrite Hw; field; lra)). reflexivity. }
  apply Qmult_comp.
  - apply Ex; [rewrite <- Enc, Z2Nat.id by lia; apply Qmult_comp; [ring|reflexivity]|]. apply Qlt_shift_div_l; [apply injZ_pos, Nc|lra].
  - rewrite <- Enm, Z2Nat.id by lia. reflexivity.
Qed.
Print Assumptions C90_cells.

(** C90: when the magnitude and chi-squared ranges are whole numbers of bins, each cell of the table of a redshift bin is the
    number density of the galaxies in the bin of that position: each galaxy counts with its share of the bin, the galaxies are
    those above the limit of the redshift bin (rounded up to the end of a magnitude bin) and of the catalog. *)
Theorem C90_density_partial : forall far csize msize zl areas pix limmag chisq_max nc nm,
  (0 < csize)%Q -> (0 < msize)%Q -> (0 < nc) -> (0 < nm) -> (chisq_max <= far)%Q ->
  whole 12 limmag msize nm -> whole 0 chisq_max csize nc ->
  exists cut t, bin_end 12 msize (if Qle_bool limmag zl then (limmag - (1#100))%Q else zl) cut /\
    chisq_table far chisq_max csize limmag msize zl areas pix = Ok t /\ shape t nm nc /\
    forall m j, m < nm -> j < nc ->
      (cell t m j == Qsum (map (fun g => share 0 csize (g_chi g) j * share 12 msize (g_mag g) m)
                              (filter (counted cut limmag chisq_max) (List.concat pix)))
                     / (nth m areas 0 * (msize * csize)))%Q.
Proof.
  intros far cs ms zl areas pix lim cmax nc nm Hcs Hms Hnc Hnm Hf Wm Wc.
  assert (Hl : (12 < lim)%Q). { red in Wm. rewrite Wm. assert (0 < inject_Z (Z.of_nat nm) * ms)%Q by (apply Qmult_lt_0_compat; [apply injZ_pos; lia|lra]). lra. }
  assert (Hc : (0 < cmax)%Q). { red in Wc. rewrite Wc. assert (0 < inject_Z (Z.of_nat nc) * cs)%Q by (apply Qmult_lt_0_compat; [apply injZ_pos; lia|lra]). lra. }
  destruct (C90_cells far cmax cs lim ms zl areas pix Hc Hcs Hl Hms Hf) as (cut & t & Ecut & E & Hs & Hv).
  destruct (mag_cut_end 12 lim ms zl nm Hl Hms Wm) as (e & Ee & He). rewrite Ecut in Ee. injection Ee as <-.
  assert (Enm : Z.to_nat (Qceiling ((lim - 12) / ms)) = nm) by (pose proof (whole_nbins _ _ _ _ Hms Wm) as W; unfold nbins in W; rewrite W; lia).
  assert (Enc : Z.to_nat (Qceiling (cmax / cs)) = nc).
  { pose proof (whole_nbins _ _ _ _ Hcs Wc) as W. unfold nbins in W. rewrite <- (Qceiling_comp ((cmax - 0) / cs) (cmax / cs)) by (apply Qmult_comp; [ring|reflexivity]). rewrite W. lia. }
  rewrite Enm, Enc in Hs, Hv. exists cut, t. split; [exact He|]. split; [exact E|]. split; [exact Hs|].
  intros m j Hm Hj. rewrite (Hv m j Hm Hj). apply Qmult_comp; [|reflexivity]. apply Qsum_map_ext. intros g _.
  pose proof (whole_width _ _ _ _ Hl Wm) as W1. pose proof (whole_width _ _ _ _ Hc Wc) as W2.
  assert (Ex : forall lo w w' x k, (w == w')%Q -> (0 < w')%Q -> (share lo w x k == share lo w' x k)%Q).
  { intros lo w w' x i Hw Hp. rewrite (share_overlap lo w x ((x - lo) / w') i) by (lra || (rewrite Hw; field; lra)). rewrite (share_overlap lo w' x ((x - lo) / w') i) by (lra || (field; lra)). reflexivity. }
  apply Qmult_comp; apply Ex; try lra. rewrite <- W2. apply Qmult_comp; [ring|reflexivity].
Qed.
Print Assumptions C90_density_partial.

(** Finding: when limmag - 12 is not a whole number of magnitude bins (limmag 14.1, bins of 0.2) the table is filled on a
    finer grid than its bins say: a galaxy in the very middle of bin 9 (magnitude 13.9) is counted with weight 115/210 there
    and with 95/210 in the next bin. *)
Theorem C90_grid_refuted : exists t, let g := mkG (139#10) (1#4) in
  chisq_table 430 20 (1#2) (141#10) (1#5) 15 (repeat 1%Q 11) [[g]] = Ok t /\
  (share 12 (1#5) (g_mag g) 9 == 1)%Q /\ (share 12 (1#5) (g_mag g) 10 == 0)%Q /\ (share 0 (1#2) (g_chi g) 0 == 1)%Q /\
  (cell t 9 0 * ((1#5) * (1#2)) == 115#210)%Q /\ (cell t 10 0 * ((1#5) * (1#2)) == 95#210)%Q.
Proof.
  destruct (C90_cells 430 20 (1#2) (141#10) (1#5) 15 (repeat 1%Q 11) [[mkG (139#10) (1#4)]]) as (cut & t & Ecut & E & _ & Hv); try lra.
  exists t. cbv zeta. split; [exact E|]. vm_compute in Ecut. injection Ecut as <-.
  split; [vm_compute; reflexivity|]. split; [vm_compute; reflexivity|]. split; [vm_compute; reflexivity|].
  assert (H9 := Hv 9 0 ltac:(vm_compute; lia) ltac:(vm_compute; lia)). assert (H10 := Hv 10 0 ltac:(vm_compute; lia) ltac:(vm_compute; lia)). clear Hv E.
  rewrite H9, H10. split; vm_compute; reflexivity.
Qed.
Print Assumptions C90_grid_refuted.
(** Finding: the chi-squared that marks galaxies beyond the magnitude limit of a redshift bin (about 430) is only out of range
    if chisq_max is not larger; otherwise a galaxy beyond the limit is counted in the cell of that value. *)
Theorem C90_marker_refuted : exists t, let g := mkG (129#10) (1#4) in
  chisq_table 430 500 100 13 (1#5) (121#10) (repeat 1%Q 5) [[g]] = Ok t /\ (exists cut, mag_cut 12 13 (1#5) (121#10) = Ok cut /\ (cut < g_mag g)%Q) /\
  (0 < cell t 4 4)%Q.
Proof. eexists. cbv zeta. split; [vm_compute; reflexivity|]. split; [eexists; split; [vm_compute; reflexivity|reflexivity]|]. vm_compute. reflexivity. Qed.
Print Assumptions C90_marker_refuted.
(** two pixels, one galaxy too faint for the redshift bin (limit 12.4) *)
Example C90_example : let g1 := mkG (123#10) (1#4) in let g2 := mkG (127#10) (1#4) in let g3 := mkG (61#5) (3#4) in
  whole 12 13 (1#5) 5 /\ whole 0 20 (1#2) 40 /\
  exists t, chisq_table 430 20 (1#2) 13 (1#5) (123#10) (repeat 2%Q 5) [[g1]; []; [g2; g3]] = Ok t /\
    (cell t 1 0 == 5)%Q /\ (cell t 0 1 == 5 # 2)%Q /\ (cell t 1 1 == 5 # 2)%Q /\ (cell t 3 0 == 0)%Q.
Proof.
  cbv zeta. split; [vm_compute; reflexivity|]. split; [vm_compute; reflexivity|]. eexists. split; [vm_compute; reflexivity|]. repeat split; vm_compute; reflexivity.
Qed.

(** * C91 *)
(** C91, any bin sizes *)
Theorem C91_cells : forall zlo zhi zsize limmag msize maxchisq areas pix,
  (-(1) < zlo)%Q -> (zlo < zhi)%Q -> (0 < zsize)%Q -> (12 < limmag)%Q -> (0 < msize)%Q ->
  let nz := Z.to_nat (Qceiling ((zhi - zlo) / zsize)) in let nm := Z.to_nat (Qceiling ((limmag - 12) / msize)) in
  exists t, zred_table zlo zhi zsize limmag msize maxchisq areas pix = Ok t /\ shape t nm nz /\
    forall m j, m < nm -> j < nz ->
      (cell t m j == Qmax2 (1#10) (Qsum (map (fun g => share zlo ((zhi - zlo) / inject_Z (Z.of_nat nz)) (zg_zred g) j *
                                                      share 12 ((limmag - 12) / inject_Z (Z.of_nat nm)) (zg_mag g) m)
                                            (filter (zcounted zlo zhi limmag maxchisq) (List.concat pix))))
                     / (nth m areas 0 * (msize * zsize)))%Q.
Proof.
  intros zlo zhi zs lim ms maxc areas pix Hz1 Hz Hzs Hl Hms nz nm.
  unfold zred_table. change mag0 with 12%Q.
  set (P := fun xm : Q * Q => Qle_bool zlo (fst xm) && Qlt_bool (fst xm) zhi && (Qlt_bool 12 (snd xm) && Qlt_bool (snd xm) lim)).
  destruct (zfill_all P maxc pix) as (mags & zreds & Efill & Hfil).
  { unfold P. cbn [fst]. assert (E : Qle_bool zlo (-(1))%Q = false) by (apply Qle_bool_false; exact Hz1). rewrite E. reflexivity. }
  rewrite Efill.
  destruct (table_spec zlo zhi zs 12 lim ms areas (fun m => Qlt_bool 12 m && Qlt_bool m lim) (fun c => Qmax2 (1#10) c) Hz Hl Hzs Hms) with (l := zreds) (r := mags) as (t & E & Hs & Hv).
  { intros m H. apply andb_true_iff in H. destruct H as [H1 H2]. apply Qlt_bool_iff in H1, H2. split; [lra|exact H2]. }
  { intros a b Hab. apply Qmax2_eq; [reflexivity|exact Hab]. }
  pose proof (nbins_pos zlo zhi zs Hz Hzs) as Nz. pose proof (nbins_pos 12 lim ms Hl Hms) as Nm.
  exists t. split; [exact E|]. split; [exact Hs|]. intros m j Hm Hj. rewrite (Hv m j Hm Hj).
  apply Qmult_comp; [|reflexivity]. apply Qmax2_eq; [reflexivity|].
  change (fun xm : Q * Q => Qle_bool zlo (fst xm) && Qlt_bool (fst xm) zhi && (Qlt_bool 12 (snd xm) && Qlt_bool (snd xm) lim)) with P.
  rewrite Hfil, filter_map_comm, map_map. cbn [fst snd].
  assert (Ef : filter (fun g => P (zg_zred g, zg_mag g)) (filter (fun g => Qlt_bool (zg_chi g) maxc) (List.concat pix)) = filter (zcounted zlo zhi lim maxc) (List.concat pix)).
  { clear. induction (List.concat pix) as [|g l IH]; [reflexivity|]. cbn [filter].
    assert (B : zcounted zlo zhi lim maxc g = Qlt_bool (zg_chi g) maxc && P (zg_zred g, zg_mag g)).
    { unfold zcounted, P. cbn [fst snd]. destruct (Qlt_bool (zg_chi g) maxc), (Qle_bool zlo (zg_zred g)), (Qlt_bool (zg_zred g) zhi), (Qlt_bool 12 (zg_mag g)), (Qlt_bool (zg_mag g) lim); reflexivity. }
    rewrite B. destruct (Qlt_bool (zg_chi g) maxc); cbn [andb filter]; [|exact IH]. destruct (P _); rewrite IH; reflexivity. }
  rewrite Ef. apply Qsum_map_ext. intros g _. unfold nz, nm. fold (nbins zlo zhi zs) (nbins 12 lim ms). rewrite !Z2Nat.id by lia. reflexivity.
Qed.
Print Assumptions C91_cells.
(** C91: when both ranges are whole numbers of bins, each cell is the number density of the galaxies with a good enough
    photometric redshift, with at least a tenth of a galaxy per cell. *)
Theorem C91_density_partial : forall zlo zhi zsize limmag msize maxchisq areas pix nz nm,
  (-(1) < zlo)%Q -> (0 < zsize)%Q -> (0 < msize)%Q -> 0 < nz -> 0 < nm -> whole zlo zhi zsize nz -> whole 12 limmag msize nm ->
  exists t, zred_table zlo zhi zsize limmag msize maxchisq areas pix = Ok t /\ shape t nm nz /\
    forall m j, m < nm -> j < nz ->
      (cell t m j == Qmax2 (1#10) (Qsum (map (fun g => share zlo zsize (zg_zred g) j * share 12 msize (zg_mag g) m)
                                            (filter (zcounted zlo zhi limmag maxchisq) (List.concat pix))))
                     / (nth m areas 0 * (msize * zsize)))%Q.
Proof.
  intros zlo zhi zs lim ms maxc areas pix nz nm Hz1 Hzs Hms Hnz Hnm Wz Wm.
  assert (Hl : (12 < lim)%Q). { red in Wm. rewrite Wm. assert (0 < inject_Z (Z.of_nat nm) * ms)%Q by (apply Qmult_lt_0_compat; [apply injZ_pos; lia|lra]). lra. }
  assert (Hz : (zlo < zhi)%Q). { red in Wz. rewrite Wz. assert (0 < inject_Z (Z.of_nat nz) * zs)%Q by (apply Qmult_lt_0_compat; [apply injZ_pos; lia|lra]). lra. }
  destruct (C91_cells zlo zhi zs lim ms maxc areas pix Hz1 Hz Hzs Hl Hms) as (t & E & Hs & Hv).
  assert (Enm : Z.to_nat (Qceiling ((lim - 12) / ms)) = nm) by (pose proof (whole_nbins _ _ _ _ Hms Wm) as W; unfold nbins in W; rewrite W; lia).
  assert (Enz : Z.to_nat (Qceiling ((zhi - zlo) / zs)) = nz) by (pose proof (whole_nbins _ _ _ _ Hzs Wz) as W; unfold nbins in W; rewrite W; lia).
  rewrite Enm, Enz in Hs, Hv. exists t. split; [exact E|]. split; [exact Hs|].
  intros m j Hm Hj. rewrite (Hv m j Hm Hj). apply Qmult_comp; [|reflexivity]. apply Qmax2_eq; [reflexivity|]. apply Qsum_map_ext. intros g _.
  assert (Ex : forall lo w w' x k, (w == w')%Q -> (0 < w')%Q -> (share lo w x k == share lo w' x k)%Q).
  { intros lo w w' x i Hw Hp. rewrite (share_overlap lo w x ((x - lo) / w') i) by (lra || (rewrite Hw; field; lra)). rewrite (share_overlap lo w' x ((x - lo) / w') i) by (lra || (field; lra)). reflexivity. }
  apply Qmult_comp; apply Ex; try lra; [exact (whole_width _ _ _ _ Hz Wz)|exact (whole_width _ _ _ _ Hl Wm)].
Qed.
Print Assumptions C91_density_partial.
(** Finding: with a zred range that is not a whole number of bins (0.1 to 0.295 in bins of 0.01) the same happens: a galaxy at
    the centre of bin 9 loses a quarter of its weight to the next bin. *)
Theorem C91_grid_refuted : exists t, let g := mkZG (121#10) (195#1000) 1 in
  zred_table (1#10) (295#1000) (1#100) 13 (1#5) 10 (repeat 1%Q 5) [[g]] = Ok t /\
  (share (1#10) (1#100) (zg_zred g) 9 == 1)%Q /\ (share 12 (1#5) (zg_mag g) 0 == 1)%Q /\
  (cell t 0 9 * ((1#5) * (1#100)) < 8#10)%Q /\ (2#10 < cell t 0 10 * ((1#5) * (1#100)))%Q.
Proof. eexists. cbv zeta. split; [vm_compute; reflexivity|]. repeat split; vm_compute; reflexivity. Qed.
Print Assumptions C91_grid_refuted.
Example C91_example : let g1 := mkZG (121#10) (195#1000) 1 in let g2 := mkZG (121#10) (195#1000) 11 in let g3 := mkZG (125#10) (2#10) 1 in
  exists t, zred_table (1#10) (3#10) (1#100) 13 (1#5) 10 (repeat 1%Q 5) [[g2; g1]; [g3]] = Ok t /\
    (cell t 0 9 == 500)%Q /\ (cell t 2 9 == 250)%Q /\ (cell t 2 10 == 250)%Q /\ (cell t 4 4 == 50)%Q.
Proof. eexists. cbv zeta. split; [vm_compute; reflexivity|]. repeat split; vm_compute; reflexivity. Qed.

(** * C92 *)
(** C92: the chi-squared background read back is the stored one interpolated linearly in magnitude, chi-squared and redshift;
    beyond the stored nodes it keeps the value of the end nodes. *)
Theorem C92_fine : forall s mag chi z km kc kz tm tc tz,
  StronglySorted Qlt (s_mag s) -> StronglySorted Qlt (s_chi s) -> StronglySorted Qlt (s_z s) ->
  (forall m c z, (0 <= s_sig s m c z)%Q) ->
  lin (s_mag s) mag km tm -> lin (s_chi s) chi kc tc -> lin (s_z s) z kz tz ->
  exists y, fine_z s mag chi z = Ok y /\
    (y == mix tz (mix tc (mix tm (s_sig s km kc kz) (s_sig s (S km) kc kz)) (mix tm (s_sig s km (S kc) kz) (s_sig s (S km) (S kc) kz)))
                 (mix tc (mix tm (s_sig s km kc (S kz)) (s_sig s (S km) kc (S kz))) (mix tm (s_sig s km (S kc) (S kz)) (s_sig s (S km) (S kc) (S kz)))))%Q.
Proof.
  intros s mag chi z km kc kz tm tc tz H1 H2 H3 Hn Lm Lc Lz. destruct (fine_z_eq s H1 H2 H3 Hn mag chi z km kc kz tm tc tz Lm Lc Lz) as (y & E & Ey & _).
  exists y. split; [exact E|exact Ey].
Qed.
Print Assumptions C92_fine.
(** it is never negative, whatever is stored *)
Theorem C92_nonneg : forall s mag chi z y, fine_z s mag chi z = Ok y -> (0 <= y)%Q.
Proof. exact fine_nonneg. Qed.
Print Assumptions C92_nonneg.
(** the number density per magnitude is the sum over the chi-squared bins times their size *)
Theorem C92_n : forall s chis mag z n, fine_n s chis mag z = Ok n ->
  exists vs, Forall2 (fun c v => fine_z s mag c z = Ok v) chis vs /\ (n == Qsum vs * (1#2))%Q.
Proof.
  intros s chis mag z n H. unfold fine_n in H. destruct (all_ok _ _) as [vs|] eqn:E; [|discriminate]. cbn [bind] in H. injection H as <-. exists vs. split; [|reflexivity].
  revert vs E. induction chis as [|c l IH]; intros vs E; cbn [all_ok] in E; [injection E as <-; constructor|].
  destruct (fine_z s mag c z) as [v|] eqn:Ev; [|discriminate]. cbn [bind] in E. destruct (all_ok _ l) as [vs'|] eqn:E'; [|discriminate]. cbn [bind] in E. injection E as <-. constructor; [exact Ev|auto].
Qed.
Print Assumptions C92_n.
(** C92: the zred background is interpolated linearly in magnitude and redshift between the stored nodes; *)
Theorem C92_zred : forall s mag z km kz tm tz,
  StronglySorted Qlt (zs_mag s) -> StronglySorted Qlt (zs_z s) ->
  lin_ext (zs_mag s) mag km tm -> lin_ext (zs_z s) z kz tz -> (0 <= tm <= 1)%Q -> (0 <= tz <= 1)%Q ->
  exists y, zfine s mag z = Ok y /\
    (y == mix tz (mix tm (zs_sig s km kz) (zs_sig s (S km) kz)) (mix tm (zs_sig s km (S kz)) (zs_sig s (S km) (S kz))))%Q.
Proof.
  intros s mag z km kz tm tz Sm Sz Lm Lz Htm Htz. destruct (zfine_eq s Sm Sz mag z km kz tm tz Lm Lz) as (fl & y & Ef & E & Ey).
  pose proof (lin_ext_lt _ _ _ _ Lm) as Hm. pose proof (lin_ext_lt _ _ _ _ Lz) as Hz.
  destruct (zfloor_spec s ltac:(lia) ltac:(lia)) as (fl' & Ef' & _ & Hfl). rewrite Ef in Ef'. injection Ef' as <-.
  exists y. split; [exact E|]. rewrite Ey.
  assert (K : forall a b, (b <= a)%Q -> (Qmax2 a b == a)%Q) by (intros a b H; destruct (Qmax2_cases a b) as [[? ->]|[? ->]]; lra).
  assert (G : forall i, i < List.length (zs_z s) -> (fl <= mix tm (zs_sig s km i) (zs_sig s (S km) i))%Q) by (intros i Hi; apply mix_ge; try apply Hfl; try lia; lra).
  rewrite K.
  - apply mix_eq; [reflexivity| |]; apply K, G; lia.
  - apply mix_ge; try lra; apply Qmax2_ge.
Qed.
Print Assumptions C92_zred.
(** beyond the nodes it continues the line of the last two, and is nowhere below the smallest stored value *)
Theorem C92_zred_outside : forall s mag z km kz tm tz,
  StronglySorted Qlt (zs_mag s) -> StronglySorted Qlt (zs_z s) -> lin_ext (zs_mag s) mag km tm -> lin_ext (zs_z s) z kz tz ->
  exists fl y, (exists m i, m < List.length (zs_mag s) /\ i < List.length (zs_z s) /\ fl = zs_sig s m i) /\
    (forall m i, m < List.length (zs_mag s) -> i < List.length (zs_z s) -> (fl <= zs_sig s m i)%Q) /\
    zfine s mag z = Ok y /\ (fl <= y)%Q /\
    (y == Qmax2 (mix tz (Qmax2 (mix tm (zs_sig s km kz) (zs_sig s (S km) kz)) fl) (Qmax2 (mix tm (zs_sig s km (S kz)) (zs_sig s (S km) (S kz))) fl)) fl)%Q.
Proof.
  intros s mag z km kz tm tz Sm Sz Lm Lz. destruct (zfine_eq s Sm Sz mag z km kz tm tz Lm Lz) as (fl & y & Ef & E & Ey).
  pose proof (lin_ext_lt _ _ _ _ Lm) as Hm. pose proof (lin_ext_lt _ _ _ _ Lz) as Hz.
  destruct (zfloor_spec s ltac:(lia) ltac:(lia)) as (fl' & Ef' & Hin & Hfl). rewrite Ef in Ef'. injection Ef' as <-.
  exists fl, y. split; [exact Hin|]. split; [exact Hfl|]. split; [exact E|]. split; [rewrite Ey; apply Qmax2_ge|exact Ey].
Qed.
Print Assumptions C92_zred_outside.
Example C92_example : let s := mkSt [12; 13]%Q [0; 1]%Q [1#10; 2#10]%Q (fun m c z => inject_Z (Z.of_nat (m + 2 * c + 4 * z)))%Q in
  lin (s_mag s) (25#2) 0 (1#2) /\ lin (s_chi s) 3 0 1 /\ lin (s_z s) (1#10) 0 0 /\ (match fine_z s (25#2) 3 (1#10) with Ok y => Qeq_bool y (5#2) | Err _ => false end) = true.
Proof.
  cbv zeta. split; [|split; [|split]].
  - exists 12%Q, 13%Q. repeat split. left. repeat split; vm_compute; congruence.
  - exists 0%Q, 1%Q. repeat split. right. right. repeat split; vm_compute; congruence.
  - exists (1#10)%Q, (2#10)%Q. repeat split. left. repeat split; vm_compute; congruence.
  - vm_compute. reflexivity.
Qed.
Example C92_zred_example : let s := mkZs [12; 13]%Q [1#10; 2#10]%Q (fun m z => inject_Z (Z.of_nat (m + 4 * z)))%Q in
  lin_ext (zs_mag s) (25#2) 0 (1#2) /\ lin_ext (zs_z s) (3#10) 0 2 /\ (match zfine s (25#2) (3#10) with Ok y => Qeq_bool y (17#2) | Err _ => false end) = true.
Proof.
  cbv zeta. split; [|split].
  - exists 12%Q, 13%Q. split; [reflexivity|]. split; [reflexivity|]. split; [reflexivity|]. split; [reflexivity|]. split; [left|left]; vm_compute; congruence.
  - exists (1#10)%Q, (2#10)%Q. split; [reflexivity|]. split; [reflexivity|]. split; [reflexivity|]. split; [reflexivity|]. split; [left; vm_compute; congruence|right; reflexivity].
  - vm_compute. reflexivity.
Qed.

(** * C93 *)
(** C93: without clobber, running the two generators in any order and any number of times keeps what is already there: the
    extension asked for is in the file afterwards, and every table that was in the file still is. *)
Theorem C93_kept : forall e t f f', store e false t f = Ok f' ->
  exists l', f' = Some l' /\ In e (map fst l') /\ (forall l, f = Some l -> exists m, l' = l ++ m) /\
    ((exists l, f = Some l /\ In e (map fst l)) -> f' = f).
Proof.
  intros e t f f' H. unfold store in H. cbn [negb andb] in H.
  assert (B : forall a b, ext_eqb a b = true <-> a = b) by (intros [] []; cbn; split; congruence).
  destruct f as [l|].
  - destruct (existsb _ l) eqn:Ex.
    + injection H as <-. apply existsb_exists in Ex. destruct Ex as (x & Hx & Eq). apply B in Eq. exists l. split; [reflexivity|].
      split; [apply in_map_iff; eauto|]. split; [intros l0 [= <-]; exists []; now rewrite app_nil_r|reflexivity].
    + destruct t as [v|]; [|discriminate]. cbn [bind] in H. injection H as <-. exists (l ++ [(e, v)]). split; [reflexivity|].
      split; [rewrite map_app; apply in_or_app; right; now left|]. split; [intros l0 [= <-]; eauto|].
      intros (l0 & [= <-] & Hi). exfalso. apply in_map_iff in Hi. destruct Hi as (x & <- & Hx).
      assert (existsb (fun y => ext_eqb (fst y) (fst x)) l = true) by (apply existsb_exists; exists x; split; [exact Hx|now apply B]). congruence.
  - destruct t as [v|]; [|discriminate]. cbn [bind] in H. injection H as <-. exists [(e, v)]. split; [reflexivity|]. split; [now left|].
    split; [discriminate|]. intros (l & Hc & _). discriminate.
Qed.
Print Assumptions C93_kept.
(** and it only fails if the table cannot be computed and is not there *)
Theorem C93_succeeds : forall e v f, exists f', store e false (Ok v) f = Ok f'.
Proof. intros e v [l|]; unfold store; cbn [bind]; [destruct (_ && _); eauto|eauto]. Qed.
Print Assumptions C93_succeeds.
(** Finding: with clobber the whole file is replaced, not the extension: recomputing one background removes the other. *)
Theorem C93_clobber_refuted : forall e e' v l, e <> e' -> In e' (map fst l) ->
  exists f', store e true (Ok v) (Some l) = Ok (Some f') /\ ~ In e' (map fst f').
Proof. intros e e' v l Hne Hin. exists [(e, v)]. split; [reflexivity|]. cbn. intros [H|[]]. congruence. Qed.
Print Assumptions C93_clobber_refuted.
Example C93_example : exists f1 f2, store CHISQBKG false (Ok [[1%Q]]) None = Ok f1 /\ store ZREDBKG false (Ok [[2%Q]]) f1 = Ok f2 /\
  f2 = Some [(CHISQBKG, [[1%Q]]); (ZREDBKG, [[2%Q]])].
Proof. eexists _, _. repeat split. Qed.
(** A table without nodes is a ValueError. *)
Theorem C92_empty s mag z : zs_mag s = [] \/ zs_z s = [] -> zfine s mag z = Err ValueError.
Proof. intros H. unfold zfine. assert (E : zs_all s = []). { unfold zs_all. destruct H as [-> | ->]; cbn; [reflexivity|]. induction (ids (zs_mag s)); [reflexivity|assumption]. } unfold zfloor. rewrite E. reflexivity. Qed.
Print Assumptions C92_empty.
(** A stored table without bins along any of its axes: ValueError. *)
Theorem C92_no_bins s mag chi z : s_mag s = [] \/ s_chi s = [] \/ s_z s = [] -> fine_z s mag chi z = Err ValueError.
Proof.
  intros H. unfold fine_z, ids. destruct (s_z s) as [|z0 zl] eqn:Ez; [reflexivity|]. cbn [List.length seq all_ok].
  assert (E : fine_chi s mag chi 0 = Err ValueError); [|rewrite E; reflexivity]. unfold fine_chi, ids. destruct (s_chi s) as [|c0 cl] eqn:Ec; [reflexivity|]. cbn [List.length seq all_ok].
  assert (E : fine_mag s mag 0 0 = Err ValueError); [|rewrite E; reflexivity]. unfold fine_mag. destruct H as [->|[H|H]]; [reflexivity|discriminate|discriminate].
Qed.
Print Assumptions C92_no_bins.
