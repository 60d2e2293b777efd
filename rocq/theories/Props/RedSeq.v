(** C45, C46, C70: red-sequence tables. *)
From Coq Require Import QArith Qround Qabs Lqa.
From Verif.Base Require Import Py PyLemmas.
From Verif.Model Require Import Bkg RedSeq.
From Verif.Spec Require Import RedSeq.
From Verif.Proofs Require Import Bkg Zlambda Util RedSeq.
Local Open Scope nat_scope.

(** C45: for every table and all redshifts the index is non-decreasing, and up to the overflow value it is in bounds. *)
Theorem C45_mono_bounds : forall z0 z1 zb, (0 < zb <= 1)%Q ->
  (forall z z', (z <= z')%Q -> zindex z0 z1 zb z <= zindex z0 z1 zb z') /\
  (forall z, (z <= 1000)%Q -> zindex z0 z1 zb z < List.length (bins z0 zb (n_bins z0 z1 zb))) /\
  (forall z, (z <= z0)%Q -> 1 <= n_bins z0 z1 zb -> zindex z0 z1 zb z = 0).
Proof.
  intros z0 z1 zb [H0 H1]. destruct (binscale_spec zb H0 H1) as [Hs _]. unfold zindex. split; [|split].
  - intros z z' H. apply lookup_mono; assumption.
  - intros z H. rewrite bins_len. pose proof (lookup_stop _ _ z _ _ Hs (bins_last z0 zb (n_bins z0 z1 zb)) H). lia.
  - intros z H Hn. pose proof (lookup_stop _ (bins z0 zb (n_bins z0 z1 zb)) z 0 _ Hs (bins_row z0 zb _ 0 Hn)) as Hl. rewrite zrow_0 in Hl. specialize (Hl H). lia.
Qed.
Print Assumptions C45_mono_bounds.
(** Beyond the overflow value the index is past the end of every table. *)
Theorem C45_beyond_refuted : forall z0 z1 zb z, (0 < zb <= 1)%Q -> (zrow z0 zb (n_bins z0 z1 zb - 1) <= 1000)%Q -> (1000 + 1 / inject_Z (binscale zb) <= z)%Q ->
  zindex z0 z1 zb z = List.length (bins z0 zb (n_bins z0 z1 zb)).
Proof.
  intros z0 z1 zb z [H0 H1] Hl Hz. destruct (binscale_spec zb H0 H1) as [Hs Hzs]. pose proof (inj_pos _ Hs) as Hsp. unfold zindex, lookup.
  set (s := binscale zb) in *. set (n := n_bins z0 z1 zb) in *.
  rewrite ssZ_all; [unfold integers; apply map_length|].
  assert (Hzz : ((1000 * s + 1) <= np_round (z * inject_Z s))%Z).
  { rewrite <- (np_round_Z (1000 * s + 1)). apply np_round_mono. rewrite inject_Z_plus, inject_Z_mult. change (inject_Z 1000) with 1000%Q. change (inject_Z 1) with 1%Q.
    setoid_replace (1000 * inject_Z s + 1)%Q with ((1000 + 1 / inject_Z s) * inject_Z s)%Q by (field; lra). apply Qmult_le_compat_r; lra. }
  assert (Ht : np_round (1000 * inject_Z s) = (1000 * s)%Z).
  { change 1000%Q with (inject_Z 1000). rewrite <- (np_round_comp (inject_Z (1000 * s))); [apply np_round_Z|]. rewrite inject_Z_mult. reflexivity. }
  intros y Hy. unfold integers in Hy. apply in_map_iff in Hy. destruct Hy as (w & <- & Hw).
  assert (Hw1000 : (w <= 1000)%Q).
  { unfold bins in Hw. apply in_app_or in Hw. destruct Hw as [Hw|[<-|[]]]; [|lra]. apply in_map_iff in Hw. destruct Hw as (i & <- & Hi). apply in_seq in Hi.
    pose proof (zrow_mono z0 zb i (n - 1) H0) as Hm. unfold zrow in *. assert (i <= n - 1) by lia. specialize (Hm H). lra. }
  assert (np_round (w * inject_Z s) <= np_round (1000 * inject_Z s))%Z by (apply np_round_mono, Qmult_le_compat_r; lra). lia.
Qed.
Print Assumptions C45_beyond_refuted.
(** Inside any table the row found is within 1/int(1/zbinsize) of the redshift. *)
Theorem C45_near : forall z0 z1 zb z, (0 < zb <= 1)%Q -> 1 <= n_bins z0 z1 zb -> (z0 <= z <= zrow z0 zb (n_bins z0 z1 zb - 1))%Q ->
  zindex z0 z1 zb z < n_bins z0 z1 zb /\ (Qabs (z - zrow z0 zb (zindex z0 z1 zb z)) * inject_Z (binscale zb) <= 1)%Q.
Proof. intros z0 z1 zb z [H0 H1] Hn [Hz0 Hz1]. destruct (binscale_spec zb H0 H1) as [Hs Hzs]. apply lookup_near; assumption. Qed.
Print Assumptions C45_near.
(** For tables that start on a multiple of the bin size it is the nearest row, up to half a bin above the last row; from
    there on it is the overflow bin. *)
Theorem C45_nearest_partial : forall z0 z1 zb z, aligned z0 zb -> let n := n_bins z0 z1 zb in 1 <= n ->
  ((z0 <= z)%Q -> (z < zrow z0 zb (n - 1) + zb * (1#2))%Q -> nearest z0 zb n (zindex z0 z1 zb z) z) /\
  ((zrow z0 zb (n - 1) <= 1000)%Q -> (zrow z0 zb (n - 1) + zb * (1#2) < z)%Q -> (z <= 1000)%Q -> zindex z0 z1 zb z = n).
Proof.
  intros z0 z1 zb z Ha n Hn. destruct (aligned_scale z0 zb Ha) as (k & H0 & H1 & Hs & Hzs & Hk). set (s := binscale zb) in *. pose proof (inj_pos s Hs) as Hsp.
  pose proof (aligned_row z0 zb s k (n - 1) Hzs Hk) as Hlast. set (zl := zrow z0 zb (n - 1)) in *.
  set (r := np_round (z * inject_Z s)). destruct (round_close (z * inject_Z s)) as [C1 C2]. fold r in C1, C2. split.
  - intros Hz0 Hz1.
    assert (Hr0 : (k <= r)%Z).
    { rewrite <- (np_round_Z k). rewrite <- (np_round_comp _ _ Hk). apply np_round_mono, Qmult_le_compat_r; lra. }
    assert (Hzs' : (z * inject_Z s < inject_Z (Z.of_nat (n - 1) + k) + (1#2))%Q).
    { rewrite <- Hlast. assert (Hm : (z * inject_Z s < (zl + zb * (1#2)) * inject_Z s)%Q) by (apply Qmult_lt_compat_r; assumption).
      assert ((zl + zb * (1#2)) * inject_Z s == zl * inject_Z s + (1#2) * (zb * inject_Z s))%Q by ring. rewrite Hzs in H. lra. }
    assert (Hr1 : (r <= Z.of_nat (n - 1) + k)%Z).
    { destruct (Z_le_gt_dec r (Z.of_nat (n - 1) + k)) as [Hc|Hc]; [exact Hc|]. exfalso. assert (Hd : (Z.of_nat (n - 1) + k < r)%Z) by lia. apply Zlt_Q1 in Hd. lra. }
    pose proof (aligned_index z0 zb s k n z Hzs Hs Hk Hn Hr0 Hr1) as Hi. fold r in Hi. unfold zindex. fold s n. set (i := lookup s (bins z0 zb n) z) in *.
    split; [lia|]. intros j Hj. change (Qabs (z - zrow z0 zb i) <= Qabs (z - zrow z0 zb j))%Q.
    apply (Qmult_le_r _ _ (inject_Z s) Hsp). rewrite <- (Qabs_pos (inject_Z s)) by lra. rewrite <- !Qabs_Qmult.
    assert (Hf : forall m, (((z - zrow z0 zb m) * inject_Z s) == z * inject_Z s - inject_Z (Z.of_nat m + k))%Q) by (intros m; rewrite <- (aligned_row z0 zb s k m Hzs Hk); ring).
    rewrite !Hf. apply Qabs_int_ge. replace (Z.of_nat i + k)%Z with r by lia. apply np_round_spec.
  - intros Hl1000 Hz Hz1000. unfold zindex. fold s n.
    assert (Hle : lookup s (bins z0 zb n) z <= n) by (exact (lookup_stop _ _ z _ _ Hs (bins_last z0 zb n) Hz1000)).
    assert (Hr : (Z.of_nat (n - 1) + k < r)%Z).
    { apply np_round_gt. rewrite <- Hlast. assert (Hm : ((zl + zb * (1#2)) * inject_Z s < z * inject_Z s)%Q) by (apply Qmult_lt_compat_r; assumption).
      assert ((zl + zb * (1#2)) * inject_Z s == zl * inject_Z s + (1#2) * (zb * inject_Z s))%Q by ring. rewrite Hzs in H. lra. }
    destruct (Nat.eq_dec (lookup s (bins z0 zb n) z) n) as [E|N]; [exact E|]. exfalso. set (i := lookup s (bins z0 zb n) z) in *.
    assert (Hat : (r <= np_round (zrow z0 zb i * inject_Z s))%Z).
    { apply (ssZ_at (integers s (bins z0 zb n))). apply (integers_nth s (bins z0 zb n) i). apply bins_row. lia. }
    rewrite (aligned_int z0 zb s k i Hzs Hk) in Hat. lia.
Qed.
Print Assumptions C45_nearest_partial.
(** A table that starts elsewhere is read in a wrong row: with bins of 0.005 from 0.052, redshift 0.0528 is read in the row
    of 0.057; with bins from 0.0525 even a tabulated redshift is read in another row. *)
Theorem C45_nearest_refuted :
  (zindex (52#1000) (952#1000) (5#1000) (528#10000) = 1 /\ ~ nearest (52#1000) (5#1000) 180 1 (528#10000)) /\
  (zrow (525#10000) (5#1000) 2 == 625#10000)%Q /\ zindex (525#10000) (9525#10000) (5#1000) (625#10000) = 1.
Proof.
  split; [split|split].
  - vm_compute. reflexivity.
  - intros [_ H]. assert (Hl : 0 < 180) by lia. specialize (H 0 Hl). vm_compute in H. apply H. reflexivity.
  - reflexivity.
  - vm_compute. reflexivity.
Qed.
Print Assumptions C45_nearest_refuted.
Example C45_example : aligned (5#100) (5#1000) /\ n_bins (5#100) (95#100) (5#1000) = 180 /\ zindex (5#100) (95#100) (5#1000) (313#1000) = 53 /\
  zindex (5#100) (95#100) (5#1000) (96#100) = 180.
Proof. split; [exists 10%Z, 200%Z; repeat split; reflexivity|]. repeat split; vm_compute; reflexivity. Qed.
(** the reference-magnitude tables (from 12 in bins of 0.01) are aligned *)
Example C45_refmag : aligned 12 (1#100).
Proof. exists 1200%Z, 100%Z. repeat split; reflexivity. Qed.

(** C46: whatever the splines give, the matrix is symmetric, its diagonal is the square of a width of at least the minimum,
    its off-diagonals are the product of the widths with a correlation in [-0.99,0.99], and values in range are kept. *)
Theorem C46_covmat : forall minsig ncol raw, let sigma := fst (covmat minsig ncol raw) in let cov := snd (covmat minsig ncol raw) in
  (forall j, j < ncol -> (minsig <= sigma j j)%Q /\ ((minsig <= raw j j)%Q -> (sigma j j == raw j j)%Q) /\ (cov j j == sigma j j * sigma j j)%Q) /\
  (forall j k, j < ncol -> k < ncol -> cov j k = cov k j /\ sigma j k = sigma k j) /\
  (forall j k, j < k < ncol -> (-(99#100) <= sigma j k <= (99#100))%Q /\ (cov j k == sigma j k * sigma j j * sigma k k)%Q /\
     ((-(99#100) <= raw j k <= (99#100))%Q -> sigma j k = raw j k)).
Proof.
  intros minsig ncol raw sigma cov. destruct (covmat_spec minsig ncol raw) as [Hd Ho]. fold sigma in Hd, Ho. unfold diag_ok, off_ok in *. fold sigma cov in Hd, Ho.
  split; [|split].
  - intros j Hj. destruct (Hd j Hj) as [-> ->]. destruct (Qmax2_cases (raw j j) minsig) as [[? ->]|[? ->]]; repeat split; intros; lra.
  - intros j k Hj Hk. destruct (lt_eq_lt_dec j k) as [[H|H]|H]; [|subst; split; reflexivity|].
    + destruct (Ho j k) as (_ & H2 & _ & H4); [lia|]. split; congruence.
    + destruct (Ho k j) as (_ & H2 & _ & H4); [lia|]. split; congruence.
  - intros j k H. destruct (Ho j k H) as (H1 & H2 & H3 & H4). destruct (corr_clip_bounds (raw j k)) as (B1 & B2 & B3). rewrite H3, H2, H1.
    split; [split; [exact B1|exact B2]|]. split; [reflexivity|]. intros [Ha Hb]. apply B3. split; [exact Ha|exact Hb].
Qed.
Print Assumptions C46_covmat.
(** so every 2x2 principal minor is positive *)
Theorem C46_minors : forall minsig ncol raw j k, (0 < minsig)%Q -> j < ncol -> k < ncol -> j <> k -> let cov := snd (covmat minsig ncol raw) in
  (0 < cov j j * cov k k - cov j k * cov k j)%Q.
Proof.
  assert (Hw : forall minsig ncol raw j k, (0 < minsig)%Q -> j < k < ncol -> let cov := snd (covmat minsig ncol raw) in (0 < cov j j * cov k k - cov j k * cov k j)%Q).
  { intros minsig ncol raw j k Hm H cov. destruct (C46_covmat minsig ncol raw) as (Hd & Hs & Ho). cbv zeta in *. fold cov in Hd, Hs, Ho.
    destruct (Hd j) as (D1 & _ & D2); [lia|]. destruct (Hd k) as (E1 & _ & E2); [lia|]. destruct (Hs j k) as [S1 _]; [lia|lia|]. destruct (Ho j k H) as ([O1 O2] & O3 & _).
    rewrite <- S1, D2, E2, O3. set (a := fst (covmat minsig ncol raw) j j) in *. set (b := fst (covmat minsig ncol raw) k k) in *. set (r := fst (covmat minsig ncol raw) j k) in *.
    assert (Hr : (r * r <= 9801#10000)%Q) by nra.
    assert (Hab : (0 < (a * b) * (a * b))%Q) by (assert (0 < a * b)%Q by (apply Qmult_lt_0_compat; lra); apply Qmult_lt_0_compat; assumption).
    setoid_replace (a * a * (b * b) - r * a * b * (r * a * b))%Q with ((1 - r * r) * ((a * b) * (a * b)))%Q by ring.
    apply Qmult_lt_0_compat; [lra|exact Hab]. }
  intros minsig ncol raw j k Hm Hj Hk Hn cov. destruct (lt_eq_lt_dec j k) as [[H|H]|H]; [apply Hw; [exact Hm|lia]|lia|].
  assert (Hx := Hw minsig ncol raw k j Hm (conj H Hj)). cbv zeta in Hx. fold cov in Hx. lra.
Qed.
Print Assumptions C46_minors.
(** With three or more colors that does not make the matrix positive: admissible correlations can give a negative
    chi-squared form. *)
Theorem C46_three_colors_indefinite : exists raw, let cov := snd (covmat (1#100) 3 raw) in
  (cov 0%nat 0%nat + cov 1%nat 1%nat + cov 2%nat 2%nat - 2 * cov 0%nat 1%nat - 2 * cov 0%nat 2%nat + 2 * cov 1%nat 2%nat < 0)%Q.   (* the form at (1,-1,-1) *)
Proof.
  exists (fun j k => if Nat.eqb j k then 1%Q else if Nat.eqb (j + k) 3 then (-99#100)%Q else (99#100)%Q). vm_compute. reflexivity.
Qed.
Print Assumptions C46_three_colors_indefinite.
Example C46_example : let raw := (fun j k => if Nat.eqb j k then (5#100) else (3#2))%Q in
  (snd (covmat (1#100) 2%nat raw) 0%nat 1%nat == (99#100) * (5#100) * (5#100))%Q.
Proof. vm_compute. reflexivity. Qed.
(** the width corrections are never below one half *)
Theorem C46_corr_r : forall first spl r, In r (corr_r first spl) -> ((1#2) <= r)%Q.
Proof. intros first spl r H. unfold corr_r in H. apply in_map_iff in H. destruct H as (x & <- & _). destruct (Qlt_bool_cases x (1#2)) as [[? ->]|[? ->]]; lra. Qed.
Print Assumptions C46_corr_r.

(** C70: rows inside the calibrated redshifts are kept; rows below have the value of the first calibrated row, rows above
    that of the last one.  Without any calibrated row the table cannot be built (IndexError). *)
Theorem C70_pinned : forall zmin zmax zs col, List.length col = List.length zs ->
  ((exists i z, nth_error zs i = Some z /\ (zmin <= z <= zmax)%Q) -> exists a b col', first_calibrated zmin zmax zs a /\ last_calibrated zmin zmax zs b /\
     pin zmin zmax zs col = Ok col' /\ List.length col' = List.length col /\
     forall i z, nth_error zs i = Some z -> ((zmin <= z <= zmax)%Q -> nth_error col' i = nth_error col i) /\
       ((z < zmin)%Q -> nth_error col' i = nth_error col a) /\ ((zmax < z)%Q -> nth_error col' i = nth_error col b)) /\
  ((forall z, In z zs -> ~ (zmin <= z <= zmax)%Q) -> pin zmin zmax zs col = Err IndexError).
Proof.
  intros zmin zmax zs col Hl. split.
  - intros Hex. destruct (not_extrap_ends zmin zmax zs Hex) as (a & b & E1 & E2 & Ha & Hb). exists a, b.
    destruct Ha as [(za & Ea & Hza) Hamin]. destruct Hb as [(zb & Eb & Hzb) Hbmax].
    assert (Hla : a < List.length zs) by (apply nth_error_Some; congruence). assert (Hlb : b < List.length zs) by (apply nth_error_Some; congruence).
    destruct (nth_some col a) as [va Hva]; [lia|]. destruct (nth_some col b) as [vb Hvb]; [lia|].
    set (col1 := set_all col (loz zmin zs) (fun _ => va)).
    assert (Hcol1b : nth_error col1 b = Some vb).
    { unfold col1. rewrite set_all_nth by lia. destruct (in_dec Nat.eq_dec b (loz zmin zs)) as [Hin|_]; [|exact Hvb]. apply loz_in in Hin. destruct Hin as (z & Hz & Hlt). rewrite Eb in Hz. injection Hz as <-. lra. }
    exists (set_all col1 (hiz zmax zs) (fun _ => vb)). split; [split; eauto|]. split; [split; eauto|]. split.
    { unfold pin. rewrite E1, E2. cbn [bind]. rewrite !py_index_nat, Hva. cbn [bind]. fold col1. rewrite ?py_index_nat, Hcol1b. reflexivity. }
    split; [rewrite set_all_length; apply set_all_length|].
    intros i z Hi. assert (Hil : i < List.length zs) by (apply nth_error_Some; congruence).
    assert (Hl1 : List.length col1 = List.length col) by apply set_all_length.
    rewrite set_all_nth by lia. unfold col1. rewrite set_all_nth by lia.
    destruct (in_dec Nat.eq_dec i (hiz zmax zs)) as [Hh|Hh]; destruct (in_dec Nat.eq_dec i (loz zmin zs)) as [Hlo|Hlo].
    + apply hiz_in in Hh. apply loz_in in Hlo. destruct Hh as (z2 & H2 & H3), Hlo as (z3 & H4 & H5). rewrite Hi in H2, H4. injection H2 as <-. injection H4 as <-. lra.
    + apply hiz_in in Hh. destruct Hh as (z2 & H2 & H3). rewrite Hi in H2. injection H2 as <-. repeat split; intros; try lra. congruence.
    + apply loz_in in Hlo. destruct Hlo as (z2 & H2 & H3). rewrite Hi in H2. injection H2 as <-. repeat split; intros; try lra. congruence.
    + repeat split; intros Hz; [exfalso; apply Hlo, loz_in; eauto|exfalso; apply Hh, hiz_in; eauto].
  - intros Hno. unfold pin. assert (E : not_extrap zmin zmax zs = []).
    { destruct (not_extrap zmin zmax zs) as [|i l] eqn:E; [reflexivity|]. assert (Hi : In i (not_extrap zmin zmax zs)) by (rewrite E; left; reflexivity).
      apply not_extrap_in in Hi. destruct Hi as (z & H1 & H2). destruct (Hno z (nth_error_In _ _ H1) H2). }
    rewrite E. reflexivity.
Qed.
Print Assumptions C70_pinned.
(** Colors follow the template outside, with the offset from the template at the nearest calibrated row; a color the
    template lacks is left alone. *)
Theorem C70_template : forall zmin zmax g zs c, List.length c = List.length zs -> (exists i z, nth_error zs i = Some z /\ (zmin <= z <= zmax)%Q) ->
  extend_color zmin zmax None zs c = Ok c /\
  exists a b c', first_calibrated zmin zmax zs a /\ last_calibrated zmin zmax zs b /\ extend_color zmin zmax (Some g) zs c = Ok c' /\
    forall i z, nth_error zs i = Some z -> ((zmin <= z <= zmax)%Q -> nth_error c' i = nth_error c i) /\
      ((z < zmin)%Q -> exists v ca za, nth_error c' i = Some v /\ nth_error c a = Some ca /\ nth_error zs a = Some za /\ (v - g z == ca - g za)%Q) /\
      ((zmax < z)%Q -> exists v cb zb, nth_error c' i = Some v /\ nth_error c b = Some cb /\ nth_error zs b = Some zb /\ (v - g z == cb - g zb)%Q).
Proof.
  intros zmin zmax g zs c Hl Hex. split; [reflexivity|]. destruct (not_extrap_ends zmin zmax zs Hex) as (a & b & E1 & E2 & Ha & Hb). exists a, b.
  destruct Ha as [(za & Ea & Hza) Hamin]. destruct Hb as [(zb & Eb & Hzb) Hbmax].
  assert (Hla : a < List.length zs) by (apply nth_error_Some; congruence). assert (Hlb : b < List.length zs) by (apply nth_error_Some; congruence).
  destruct (nth_some c a) as [va Hva]; [lia|]. destruct (nth_some c b) as [vb Hvb]; [lia|].
  set (c1 := set_all c (loz zmin zs) (fun i => (g (nth i zs 0) - (g za - va))%Q)).
  assert (Hc1b : nth_error c1 b = Some vb).
  { unfold c1. rewrite set_all_nth by lia. destruct (in_dec Nat.eq_dec b (loz zmin zs)) as [Hin|_]; [|exact Hvb]. apply loz_in in Hin. destruct Hin as (z & Hz & Hlt). rewrite Eb in Hz. injection Hz as <-. lra. }
  exists (set_all c1 (hiz zmax zs) (fun i => (g (nth i zs 0) - (g zb - vb))%Q)). split; [split; eauto|]. split; [split; eauto|]. split.
  { unfold extend_color. rewrite E1, E2. cbn [bind]. rewrite py_index_nat, Ea. cbn [bind]. rewrite py_index_nat, Hva. cbn [bind]. rewrite ?py_index_nat, Eb. cbn [bind]. fold c1. rewrite ?py_index_nat, Hc1b. reflexivity. }
  intros i z Hi. assert (Hil : i < List.length zs) by (apply nth_error_Some; congruence).
  assert (Hl1 : List.length c1 = List.length c) by apply set_all_length.
  rewrite set_all_nth by lia. unfold c1. rewrite set_all_nth by lia. assert (Hnz : nth i zs 0%Q = z) by (apply nth_error_nth; exact Hi).
  destruct (in_dec Nat.eq_dec i (hiz zmax zs)) as [Hh|Hh]; destruct (in_dec Nat.eq_dec i (loz zmin zs)) as [Hlo|Hlo].
  - apply hiz_in in Hh. apply loz_in in Hlo. destruct Hh as (z2 & H2 & H3), Hlo as (z3 & H4 & H5). rewrite Hi in H2, H4. injection H2 as <-. injection H4 as <-. lra.
  - apply hiz_in in Hh. destruct Hh as (z2 & H2 & H3). rewrite Hi in H2. injection H2 as <-. repeat split; intros; try lra. exists (g (nth i zs 0) - (g zb - vb))%Q, vb, zb. repeat split; [exact Hvb|exact Eb|]. rewrite Hnz. ring.
  - apply loz_in in Hlo. destruct Hlo as (z2 & H2 & H3). rewrite Hi in H2. injection H2 as <-. repeat split; intros; try lra. exists (g (nth i zs 0) - (g za - va))%Q, va, za. repeat split; [exact Hva|exact Ea|]. rewrite Hnz. ring.
  - repeat split; intros Hz; [exfalso; apply Hlo, loz_in; eauto|exfalso; apply Hh, hiz_in; eauto].
Qed.
Print Assumptions C70_template.
Example C70_example : pin (15#100) (35#100) [1#10; 2#10; 3#10; 4#10]%Q [10; 11; 12; 13]%Q = Ok [11; 11; 12; 12]%Q.
Proof. vm_compute. reflexivity. Qed.
