(** C123, C124: the parameter file of the red sequence, and what its calibration starts from. *)
From Coq Require Import QArith Qabs Ascii String.
From Verif.Base Require Import Py PyLemmas.
From Verif.Model Require Import Names Maskgals Nodes ParFile.
From Verif.Proofs Require Import ParFile.
From Coq Require Import Lqa Lia List. Import ListNotations.
Local Open Scope Q_scope.

(** * C123 *)
(** C123: reading a parameter file gives what was configured: the number of colours, the limit, the slope, the survey, the bin size, the
    reference band, the template and, with a template, the bands; and the b values if they are positive. *)
Theorem C123_roundtrip : forall c fine, (0 < f_nmag c)%nat ->
  (exists l a s, f_bands c = a :: l ++ [s] /\ (forall x, In x (f_bands c) -> ~ In ","%char x) /\ exists t e, s = (t ++ [e])%list /\ ~ In (nat_of_ascii e) [32; 9; 10; 11; 12; 13]%nat) ->
  List.length (f_b c) = f_nmag c ->
  exists p, read_header None None None fine (write_header c) = Ok p /\
    r_limmag p = f_limmag c /\ r_alpha p = f_alpha c /\ r_survey p = f_survey c /\ r_mband p = f_mband c /\ r_ncol p = (Z.of_nat (f_nmag c) - 1)%Z /\
    r_zbin p = (if fine then f_fine c else f_coarse c) /\ r_lowz p = 0%Z /\ r_ref p = f_ref c /\
    r_template p = match f_template c with Some (t, _) => Some (t, f_bands c) | None => None end /\
    r_b p = (if Qlt_bool 0 (nth 0 (f_b c) 0) then f_b c else repeat 0 (f_nmag c)).
Proof.
  intros c fine Hn (bl & a & s & Eb & Hc & t & e & Es & He) Hb.
  assert (PB : parse_bands (join (f_bands c)) = f_bands c).
  { unfold parse_bands. assert (X : existsb (Ascii.eqb comma) (join (f_bands c)) = true) by (rewrite Eb; destruct bl; apply join_comma). rewrite X.
    destruct (join_last (a :: bl) t e) as (u & Hu). assert (EJ : join (f_bands c) = (u ++ [e])%list) by (rewrite Eb, Es; exact Hu). rewrite EJ, rstrip_id.
    - rewrite <- EJ. apply split_join; [rewrite Eb; discriminate|]. exact Hc.
    - destruct (char_in ws e) eqn:E; [|reflexivity]. destruct He. unfold char_in in E. apply existsb_exists in E. destruct E as (w & Hw & E). apply Ascii.eqb_eq in E. subst w.
      unfold ws in Hw. apply in_map_iff in Hw. destruct Hw as (n & <- & Hn'). rewrite nat_ascii_embedding; [exact Hn'|]. cbn in Hn'. lia. }
  assert (NM : Z.to_nat (Z.of_nat (f_nmag c) - 1 + 1) = f_nmag c) by lia.
  unfold read_header. destruct (f_template c) as [[tn zmax]|] eqn:ET.
  - assert (RB : read_b (write_header c) (f_nmag c) = if Qlt_bool 0 (nth 0 (f_b c) 0) then f_b c else repeat 0 (f_nmag c)).
    { unfold write_header. rewrite ET. destruct (Qlt_bool 0 (nth 0 (f_b c) 0)).
      - rewrite <- Hb. apply read_b_all. intros i Hi. rewrite <- (getB_bvals (f_b c) 0 i Hi). reflexivity.
      - apply read_b_none. reflexivity. }
    unfold write_header in *. rewrite ET in *. cbn [app] in *. unfold getQ, getZ, getS.
    destruct fine; cbn [get key_eqb String.eqb Ascii.eqb Bool.eqb need bind fst snd]; rewrite NM, PB;
      (eexists; split; [reflexivity|]; cbn [r_limmag r_alpha r_survey r_mband r_ncol r_zbin r_lowz r_ref r_template r_b]; rewrite <- RB; repeat split).
  - assert (TN : get (write_header c) (K "TEMPLATE") = None).
    { unfold write_header. rewrite ET. cbn [app get key_eqb String.eqb Ascii.eqb Bool.eqb]. destruct (Qlt_bool 0 (nth 0 (f_b c) 0)); [|reflexivity]. clear. generalize 0%nat as j. induction (f_b c) as [|x b IH]; intros j; [reflexivity|]. cbn. apply IH. }
    assert (RB : read_b (write_header c) (f_nmag c) = if Qlt_bool 0 (nth 0 (f_b c) 0) then f_b c else repeat 0 (f_nmag c)).
    { unfold write_header. rewrite ET. destruct (Qlt_bool 0 (nth 0 (f_b c) 0)).
      - rewrite <- Hb. apply read_b_all. intros i Hi. rewrite <- (getB_bvals (f_b c) 0 i Hi). reflexivity.
      - apply read_b_none. reflexivity. }
    unfold getS at 3. rewrite TN.
    unfold write_header in *. rewrite ET in *. cbn [app] in *. unfold getQ, getZ, getS.
    destruct fine; cbn [get key_eqb String.eqb Ascii.eqb Bool.eqb need bind fst snd]; rewrite NM;
      (eexists; split; [reflexivity|]; cbn [r_limmag r_alpha r_survey r_mband r_ncol r_zbin r_lowz r_ref r_template r_b]; rewrite <- RB; repeat split).
Qed.
Print Assumptions C123_roundtrip.
(** C123: a missing entry is reported, and only that is. *)
Theorem C123_missing : forall fine h,
  (exists p, read_header None None None fine h = Ok p) <->
  getQ h (K "LIMMAG") <> None /\ getQ h (K "ZRANGE0") <> None /\ getQ h (K "ZRANGE1") <> None /\ getQ h (K "ALPHA") <> None /\
  getS h (K "MSTARSUR") <> None /\ getS h (K "MSTARBAN") <> None /\ getZ h (K "NCOL") <> None /\
  (getS h (K "TEMPLATE") <> None -> getS h (K "BANDS") <> None) /\ getQ h (K (if fine then "ZBINFINE" else "ZBINCOAR")) <> None /\
  (getZ h (K "REF_IND") <> None \/ getZ h (K "I_IND") <> None).
Proof.
  intros fine h. unfold read_header.
  destruct (getQ h (K "LIMMAG")); cbn [need bind]; [|split; [intros (p & E); discriminate|intros (H & _); congruence]].
  destruct (getQ h (K "ZRANGE0")); cbn [need bind]; [|split; [intros (p & E); discriminate|intros (_ & H & _); congruence]].
  destruct (getQ h (K "ZRANGE1")); cbn [need bind]; [|split; [intros (p & E); discriminate|intros (_ & _ & H & _); congruence]].
  destruct (getQ h (K "ALPHA")); cbn [need bind]; [|split; [intros (p & E); discriminate|intros (_ & _ & _ & H & _); congruence]].
  destruct (getS h (K "MSTARSUR")); cbn [need bind]; [|split; [intros (p & E); discriminate|intros (_ & _ & _ & _ & H & _); congruence]].
  destruct (getS h (K "MSTARBAN")); cbn [need bind]; [|split; [intros (p & E); discriminate|intros (_ & _ & _ & _ & _ & H & _); congruence]].
  destruct (getZ h (K "NCOL")); cbn [need bind]; [|split; [intros (p & E); discriminate|intros (_ & _ & _ & _ & _ & _ & H & _); congruence]].
  destruct (getS h (K "TEMPLATE")) as [tn|]; [destruct (getS h (K "BANDS")); cbn [need bind]|cbn [bind]].
  2: { split; [intros (p & E); discriminate|]. intros (_ & _ & _ & _ & _ & _ & _ & H & _). destruct H; congruence. }
  all: destruct (getQ h (K (if fine then "ZBINFINE" else "ZBINCOAR"))); cbn [need bind]; [|split; [intros (p & E); discriminate|intros (_ & _ & _ & _ & _ & _ & _ & _ & H & _); congruence]].
  all: destruct (getZ h (K "REF_IND")); [|destruct (getZ h (K "I_IND"))]; cbn [need bind].
  all: try (split; [intros _; repeat split; try congruence; first [left; congruence|right; congruence]|intros _; eauto]).
  all: split; [intros (p & E); discriminate|intros (_ & _ & _ & _ & _ & _ & _ & _ & _ & [H|H]); congruence].
Qed.
Print Assumptions C123_missing.
Theorem C123_missing_error : forall lim zr zb fine h e, read_header lim zr zb fine h = Err e -> e = ValueError.
Proof.
  intros lim zr zb fine h e E. unfold read_header in E.
  unfold need, bind in E. repeat match type of E with context [match ?x with _ => _ end] => lazymatch x with context [match _ with _ => _ end] => fail | _ => destruct x end end; congruence.
Qed.
Print Assumptions C123_missing_error.
(** C123: what the caller gives takes the place of what is in the file. *)
Theorem C123_given : forall lim z0 z1 zb fine h p, read_header (Some lim) (Some (z0, z1)) (Some zb) fine h = Ok p ->
  r_limmag p = lim /\ r_z0 p = z0 /\ r_z1 p = z1 /\ r_zbin p = zb.
Proof.
  intros lim z0 z1 zb fine h p E. unfold read_header in E.
  unfold need, bind in E. cbn [fst snd] in E. repeat match type of E with context [match ?x with _ => _ end] => lazymatch x with context [match _ with _ => _ end] => fail | _ => destruct x end end; try discriminate; injection E as <-; auto.
Qed.
Print Assumptions C123_given.
(** C123: what is read is what is in the header. *)
Theorem C123_fields : forall fine h p, read_header None None None fine h = Ok p ->
  getQ h (K "LIMMAG") = Some (r_limmag p) /\ getQ h (K "ZRANGE0") = Some (r_z0 p) /\ getQ h (K "ZRANGE1") = Some (r_z1 p) /\ getQ h (K "ALPHA") = Some (r_alpha p) /\
  getS h (K "MSTARSUR") = Some (r_survey p) /\ getS h (K "MSTARBAN") = Some (r_mband p) /\ getZ h (K "NCOL") = Some (r_ncol p) /\
  getQ h (K (if fine then "ZBINFINE" else "ZBINCOAR")) = Some (r_zbin p) /\
  r_b p = read_b h (Z.to_nat (r_ncol p + 1)) /\ (r_lup p = true <-> forall b, In b (r_b p) -> 0 < b).
Proof.
  intros fine h p E. unfold read_header in E.
  destruct (getQ h (K "LIMMAG")) eqn:E1; cbn [need bind] in E; [|discriminate].
  destruct (getQ h (K "ZRANGE0")) eqn:E2; cbn [need bind] in E; [|discriminate].
  destruct (getQ h (K "ZRANGE1")) eqn:E3; cbn [need bind] in E; [|discriminate].
  destruct (getQ h (K "ALPHA")) eqn:E4; cbn [need bind] in E; [|discriminate].
  destruct (getS h (K "MSTARSUR")) eqn:E5; cbn [need bind] in E; [|discriminate].
  destruct (getS h (K "MSTARBAN")) eqn:E6; cbn [need bind] in E; [|discriminate].
  destruct (getZ h (K "NCOL")) eqn:E7; cbn [need bind] in E; [|discriminate].
  match type of E with bind ?x _ = _ => destruct x as [tp|]; cbn [bind] in E; [|discriminate] end.
  destruct (getQ h (K (if fine then "ZBINFINE" else "ZBINCOAR"))) eqn:E8; cbn [need bind] in E; [|discriminate].
  match type of E with bind ?x _ = _ => destruct x as [rf|]; cbn [bind] in E; [|discriminate] end.
  injection E as <-. cbn [r_limmag r_z0 r_z1 r_alpha r_survey r_mband r_ncol r_zbin r_b r_lup fst snd]. repeat split.
  - intros H b Hb. rewrite forallb_forall in H. apply Qlt_bool_iff, H, Hb.
  - intros H. apply forallb_forall. intros b Hb. apply Qlt_bool_iff, H, Hb.
Qed.
Print Assumptions C123_fields.
(** C123, when the template reaches as far as the redshifts asked for and those begin at 0.01 or above: the redshifts of the file
    cover them, with more at both ends. *)
Theorem C123_covers_partial : forall c p fine, (1 # 100) <= f_z0 c -> (forall t zmax, f_template c = Some (t, zmax) -> f_z1 c <= zmax) ->
  read_header None None None fine (write_header c) = Ok p -> r_z0 p <= f_z0 c /\ f_z1 c <= r_z1 p.
Proof.
  intros c p fine H0 H1 E.
  assert (Z : r_z0 p = Qmax2 (f_z0 c - (1 # 10)) (1 # 100) /\ r_z1 p = match f_template c with Some (_, zmax) => Qmin2 (f_z1 c + (1 # 4)) zmax | None => f_z1 c + (1 # 4) end).
  { destruct (C123_fields _ _ _ E) as (_ & Z0 & Z1 & _). unfold getQ in Z0, Z1. cbn [write_header app get key_eqb String.eqb Ascii.eqb Bool.eqb] in Z0, Z1. split; congruence. }
  destruct Z as [-> ->]. split; [unfold Qmax2; destruct (Qle_bool _ _); lra|]. destruct (f_template c) as [[t zmax]|]; [|lra]. specialize (H1 t zmax eq_refl). unfold Qmin2. destruct (Qle_bool _ _); lra.
Qed.
Print Assumptions C123_covers_partial.
Definition C123_cfg : cfg := mkCfg 3 (s_ "sdss") (s_ "i03") 21 (5 # 1000) (9 # 10) (-1) (1 # 1000) (5 # 1000) 2 [s_ "g"; s_ "r"; s_ "i"] [1 # 10; 0; 1 # 10] (Some (s_ "bc03", 8 # 10)).
(** Finding: a range from below 0.01 is cut there, and one beyond the template's last redshift is cut at that, without a message: the
    parameter file then says less than the configuration. *)
Theorem C123_covers_refuted : exists p, read_header None None None true (write_header C123_cfg) = Ok p /\ f_z0 C123_cfg < r_z0 p /\ r_z1 p < f_z1 C123_cfg.
Proof. eexists. split; [vm_compute; reflexivity|]. split; reflexivity. Qed.
Print Assumptions C123_covers_refuted.
(** C123, when the b values are all positive or all zero: the file is read with a correction for luptitudes exactly if it was made with one. *)
Theorem C123_lup_partial : forall c p fine, (0 < f_nmag c)%nat -> List.length (f_b c) = f_nmag c ->
  (forall x, In x (f_b c) -> 0 < x) \/ (forall x, In x (f_b c) -> x == 0) ->
  read_header None None None fine (write_header c) = Ok p -> r_lup p = cal_lup (f_b c).
Proof.
  intros c p fine Hn Hb H E.
  assert (RB : r_lup p = forallb (Qlt_bool 0) (read_b (write_header c) (f_nmag c))).
  { destruct (C123_fields _ _ _ E) as (_ & _ & _ & _ & _ & _ & EN & _ & B & L). unfold getZ in EN. cbn [write_header app get key_eqb String.eqb Ascii.eqb Bool.eqb] in EN.
    assert (NC : r_ncol p = (Z.of_nat (f_nmag c) - 1)%Z) by congruence. rewrite NC in B. replace (Z.to_nat (Z.of_nat (f_nmag c) - 1 + 1)) with (f_nmag c) in B by lia. rewrite <- B.
    apply Bool.eq_iff_eq_true. rewrite L, forallb_forall. split; intros H' b Hb'; apply Qlt_bool_iff, H', Hb'. }
  assert (B0 : In (nth 0 (f_b c) 0) (f_b c)) by (apply nth_In; lia). rewrite RB. unfold cal_lup. destruct H as [H|H].
  - assert (L : Qlt_bool 0 (nth 0 (f_b c) 0) = true) by (apply Qlt_bool_iff, H, B0).
    assert (R : read_b (write_header c) (f_nmag c) = f_b c).
    { unfold write_header. rewrite L. rewrite <- Hb. apply read_b_all. intros i Hi. destruct (f_template c) as [[tn zm]|]; rewrite <- (getB_bvals (f_b c) 0 i Hi); reflexivity. }
    rewrite R. destruct (Qeq_bool _ 0) eqn:Q; [apply Qeq_bool_iff in Q; specialize (H _ B0); lra|]. apply forallb_forall. intros x Hx. apply Qlt_bool_iff, H, Hx.
  - assert (L : Qlt_bool 0 (nth 0 (f_b c) 0) = false) by (apply Qlt_bool_false; rewrite (H _ B0); lra).
    assert (R : read_b (write_header c) (f_nmag c) = repeat 0 (f_nmag c)).
    { unfold write_header. rewrite L. apply read_b_none. intros i. destruct (f_template c) as [[tn zm]|]; reflexivity. }
    rewrite R. assert (Q : Qeq_bool (nth 0 (f_b c) 0) 0 = true) by (apply Qeq_bool_iff, H, B0). rewrite Q. destruct (f_nmag c); [lia|reflexivity].
Qed.
Print Assumptions C123_lup_partial.
(** Finding: the calibration looks at the first b value, the reader at the smallest: with a zero among the others the parameters are
    fitted with a correction for luptitudes and used without. *)
Theorem C123_lup_refuted : exists p, read_header None None None true (write_header C123_cfg) = Ok p /\ cal_lup (f_b C123_cfg) = true /\ r_lup p = false.
Proof. eexists. split; [vm_compute; reflexivity|]. split; reflexivity. Qed.
Print Assumptions C123_lup_refuted.
Example C123_ex : exists p, read_header None None None false (write_header C123_cfg) = Ok p /\ r_template p = Some (s_ "bc03", [s_ "g"; s_ "r"; s_ "i"]) /\ r_b p = [1 # 10; 0; 1 # 10] /\ r_ncol p = 2%Z.
Proof. eexists. split; [vm_compute; reflexivity|]. repeat split. Qed.

(** * C124 *)
(** C124: the red sequence is calibrated from the galaxies in the open redshift range with a probability above the cut, in their order;
    with none, that is reported. *)
Theorem C124_sample : forall (use_pcol : bool) z0 z1 pcut gals,
  let good (g : mgal) := z0 < m_z g /\ m_z g < z1 /\ pcut < (if use_pcol then m_pcol g else m_p g) in
  (exists p, (forall g, p g = true <-> good g) /\ forall s, sample use_pcol z0 z1 pcut gals = Ok s -> s = filter p gals) /\
  (sample use_pcol z0 z1 pcut gals = Err RuntimeError <-> forall g, In g gals -> ~ good g) /\
  forall e, sample use_pcol z0 z1 pcut gals = Err e -> e = RuntimeError.
Proof.
  intros up z0 z1 pc gals good. unfold sample. set (p := fun g => Qlt_bool z0 (m_z g) && Qlt_bool (m_z g) z1 && Qlt_bool pc (prob up g)).
  assert (P : forall g, p g = true <-> good g) by (intros g; unfold p, good, prob; rewrite !andb_true_iff, !Qlt_bool_iff; tauto).
  assert (Ex : forall g : mgal, In g (filter p gals) <-> In g gals /\ good g) by (intros g; rewrite filter_In, P; reflexivity).
  split; [exists p; split; [exact P|]; intros s; destruct (filter p gals); congruence|].
  split; [|intros e; destruct (filter p gals); congruence].
  destruct (filter p gals) as [|g l] eqn:F; split; intros H; try discriminate; try reflexivity.
  - intros g Hg G. apply (Ex g). split; assumption.
  - exfalso. destruct (Ex g) as [A _]. destruct (A (or_introl eq_refl)) as [A1 A2]. apply (H g A1 A2).
Qed.
Print Assumptions C124_sample.
(** C124: the colours are calibrated from those of them with a probability above the colour cut. *)
Theorem C124_colour : forall (use_pcol : bool) z0 z1 pcut cpcut gals s g, sample use_pcol z0 z1 pcut gals = Ok s ->
  (In g (colour_sample use_pcol cpcut s) <-> In g gals /\ z0 < m_z g /\ m_z g < z1 /\ pcut < (if use_pcol then m_pcol g else m_p g) /\ cpcut < (if use_pcol then m_pcol g else m_p g)).
Proof.
  intros up z0 z1 pc cpc gals s g E. destruct (C124_sample up z0 z1 pc gals) as ((p & P & Hs) & _). rewrite (Hs s E). unfold colour_sample. rewrite !filter_In, P, Qlt_bool_iff. unfold prob. tauto.
Qed.
Print Assumptions C124_colour.
(** Finding: only the first of the two samples is checked: when no galaxy passes the colour cut, the pivot magnitudes and colours start
    at zero at every node, and nothing is reported. *)
Theorem C124_empty_refuted : forall (use_pcol : bool) z0 z1 pcut cpcut gals s nodes, sample use_pcol z0 z1 pcut gals = Ok s -> (forall g, In g s -> (if use_pcol then m_pcol g else m_p g) <= cpcut) ->
  startvals 3 nodes (map (fun g => (m_z g, m_mag g)) (colour_sample use_pcol cpcut s)) = repeat (0, 0) (List.length nodes).
Proof.
  intros up z0 z1 pc cpc gals s nodes _ H. assert (E : colour_sample up cpc s = []).
  { unfold colour_sample. induction s as [|g s IH]; [reflexivity|]. cbn [filter]. assert (X : Qlt_bool cpc (prob up g) = false) by (apply Qlt_bool_false, (H g (or_introl eq_refl))). rewrite X. apply IH. intros; apply H; right; assumption. }
  rewrite E. unfold startvals. cbn [map]. assert (G : forall is, startvals_from 3 nodes [] (0, 0) is = repeat (0, 0) (List.length is)).
  { induction is as [|i is IH]; [reflexivity|]. cbn [startvals_from List.length repeat]. unfold node_val. cbn [filter map List.length Nat.ltb Nat.leb]. rewrite IH. reflexivity. }
  rewrite G, seq_length. reflexivity.
Qed.
Print Assumptions C124_empty_refuted.
Example C124_empty_ex : sample false (1 # 10) (5 # 10) (3 # 10) [mkMG (2 # 10) (6 # 10) 0 17] = Ok [mkMG (2 # 10) (6 # 10) 0 17] /\
  startvals 3 [1 # 10; 3 # 10; 5 # 10] (map (fun g => (m_z g, m_mag g)) (colour_sample false (7 # 10) [mkMG (2 # 10) (6 # 10) 0 17])) = [(0, 0); (0, 0); (0, 0)].
Proof. vm_compute. auto. Qed.
(** C124: the ratio of the errors is the one of 0.5, 0.6, ..., 9.9 with the scatter of the pulls nearest to one, the smallest of several;
    1 when it is not to be fitted. *)
Theorem C124_ratio : forall width, err_ratio false width = 1 /\
  exists k, (k < 95)%nat /\ err_ratio true width = (5 # 10) + inject_Z (Z.of_nat k) * (1 # 10) /\
    (forall i, (i < 95)%nat -> Qabs (width (err_ratio true width) - 1) <= Qabs (width ((5 # 10) + inject_Z (Z.of_nat i) * (1 # 10)) - 1)) /\
    (forall i, (i < k)%nat -> Qabs (width (err_ratio true width) - 1) < Qabs (width ((5 # 10) + inject_Z (Z.of_nat i) * (1 # 10)) - 1)).
Proof.
  intros width. split; [reflexivity|]. unfold err_ratio. set (h := fun r => Qabs (width r - 1)). set (g := fun i => (5 # 10) + inject_Z (Z.of_nat i) * (1 # 10)).
  destruct (argminQ_spec (map h ratios)) as (x & E & Hall & Hf); [discriminate|]. set (k := argminQ (map h ratios)) in *. clearbody k. exists k.
  assert (Hk : (k < 95)%nat) by (apply Nat.lt_le_trans with (List.length (map h ratios)); [apply nth_error_Some; congruence|rewrite map_length; apply Nat.le_refl]).
  assert (N : forall i, (i < 95)%nat -> nth_error ratios i = Some (g i)).
  { intros i Hi. unfold ratios. rewrite nth_error_map. rewrite (nth_error_nth' _ 0%nat) by (rewrite seq_length; exact Hi). rewrite seq_nth by exact Hi. reflexivity. }
  assert (NK : nth k ratios 0 = g k) by (apply nth_error_nth, N, Hk). rewrite NK. assert (EX : x = h (g k)) by (rewrite nth_error_map, (N k Hk) in E; cbn in E; congruence). subst x.
  split; [exact Hk|]. split; [reflexivity|]. split.
  - intros i Hi. apply Hall. apply in_map_iff. exists (g i). split; [reflexivity|]. apply (nth_error_In _ i), N, Hi.
  - intros i Hi. apply (Hf i); [exact Hi|]. rewrite nth_error_map, N by lia. reflexivity.
Qed.
Print Assumptions C124_ratio.
(** C124: the volume factor is one at the reference redshift, positive where distances grow, and the same for all Hubble constants. *)
Theorem C124_volume : forall (dl : Q -> Q) zref,
  let d z := dl z / (1 + z) in
  (~ d (zref + (1 # 100)) == d zref -> volume_factor dl zref zref == 1) /\
  (forall z, d zref < d (zref + (1 # 100)) -> d z < d (z + (1 # 100)) -> 0 < volume_factor dl zref z) /\
  (forall z h, ~ h == 0 -> ~ d (z + (1 # 100)) == d z -> volume_factor (fun x => dl x / h) zref z == volume_factor dl zref z).
Proof.
  intros dl zref d. unfold volume_factor.
  assert (D : forall z, dl z / (1 + z) = d z) by reflexivity. split; [|split].
  - intros H. rewrite !D. field. lra.
  - intros z H1 H2. rewrite !D. apply Qlt_shift_div_l; lra.
  - intros z h Hh Hz. assert (S : forall x, dl x / h / (1 + x) == d x / h) by (intros x; unfold d, Qdiv; ring). rewrite !S, !D. field. split; [lra|exact Hh].
Qed.
Print Assumptions C124_volume.
Example C124_volume_ex : Qred (volume_factor (fun z => z * (1 + z)) (1 # 2) (1 # 10)) = 1 /\ Qred (err_ratio true (fun r => 2 / r)) = 2.
Proof. vm_compute. auto. Qed.
