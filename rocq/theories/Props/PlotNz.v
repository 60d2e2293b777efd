(** C191: the number density in redshift; C192: the map of positions *)
From Coq Require Import QArith Qround Reals Lra Sorted.
From Verif.Base Require Import Py PyLemmas.
From Verif.Model Require Import Maskgals Galfile Util PdfSample BkgGen PlotNz.
From Verif.Proofs Require RedCal BkgGen Util Ingest.
From Verif.Props Require PdfSample.
From Verif.Spec Require Import PlotNz.
From Verif.Proofs Require Import PlotNz.
From Coq Require Import Lqa Lia List. Import ListNotations.
Local Open Scope Q_scope.

(** A bin is drawn exactly when it has more than 25 objects, with the number over the volume as density and the square root of the number over the
    volume as error, both times 10000. *)
Theorem C191_points h v : (0 < v)%R -> (forall d e, point h v = Some (d, e) <-> (25 < h)%nat /\ d = (INR h / v * 10000)%R /\ e = (sqrt (INR h) / v * 10000)%R) /\ (point h v = None <-> (h <= 25)%nat).
Proof.
  intros V. rewrite (point_spec h v V). destruct (Nat.ltb_spec 25 h) as [H|H]; split.
  - intros d e. split; [intros I; injection I as <- <-; auto | intros (_ & -> & ->); reflexivity].
  - split; [discriminate | lia].
  - intros d e. split; [discriminate | intros [I _]; lia].
  - split; auto.
Qed.
Print Assumptions C191_points.

(** The bins count each object from the lower end of the range up to 0.0001 below its upper end exactly once, and no other. *)
Theorem C191_counts z0 z1 bs zs : 0 < bs -> sumN (counts z0 z1 bs zs) = List.length (filter (fun z => Qle_bool z0 z && Qle_bool z (z1 - (1 # 10000)))%bool zs).
Proof. exact (counts_sum z0 z1 bs zs). Qed.
Print Assumptions C191_counts.
Theorem C191_bin z0 z1 bs zs j c : 0 < bs -> nth_error (counts z0 z1 bs zs) j = Some c ->
  c = List.length (filter (fun z => Qle_bool z0 z && Qle_bool z (z1 - (1 # 10000)) && Qle_bool (z0 + inject_Z (Z.of_nat j) * bs) z && Qlt_bool z (z0 + inject_Z (Z.of_nat (S j)) * bs))%bool zs).
Proof.
  intros B H. unfold counts, RedCal.histogram in H. rewrite nth_error_map in H. destruct (nth_error (seq 0 _) j) as [i|] eqn:E; [|discriminate].
  assert (J : (j < List.length (seq 0 (Z.to_nat (Qtrunc ((z1 - (1 # 10000) - z0) / bs) + 1))))%nat) by (apply nth_error_Some; congruence). rewrite seq_length in J.
  apply nth_error_nth with (d := 0%nat) in E. rewrite seq_nth in E by exact J. cbn in E. subst i. injection H as <-.
  clear J. induction zs as [|z zs IH]; [reflexivity|]. cbn [filter]. destruct (Qle_bool z0 z) eqn:A; cbn [andb]; [|exact IH]. destruct (Qle_bool z (z1 - (1 # 10000))); cbn [andb]; [|exact IH].
  apply Qle_bool_iff in A. cbn [filter]. assert (E : (Qtrunc ((z - z0) / bs) =? Z.of_nat j)%Z = (Qle_bool (z0 + inject_Z (Z.of_nat j) * bs) z && Qlt_bool z (z0 + inject_Z (Z.of_nat (S j)) * bs))%bool).
  { apply eq_true_iff_eq. rewrite (RedCal.trunc_bin z0 bs z j B A), andb_true_iff, Qle_bool_iff, Qlt_bool_iff. reflexivity. }
  rewrite E. destruct (_ && _)%bool; cbn [List.length]; rewrite IH; reflexivity.
Qed.
Print Assumptions C191_bin.
(** Finding: objects in the last 0.0001 of the range are counted in no bin, while the volume of the last bin has it. *)
Theorem C191_top_refuted z0 z1 bs z j : 0 < bs -> z1 - (1 # 10000) < z -> nth j (counts z0 z1 bs [z]) 0%nat = 0%nat.
Proof.
  intros B H. destruct (nth_error (counts z0 z1 bs [z]) j) as [c|] eqn:E.
  - rewrite (nth_error_nth _ _ _ E). rewrite (C191_bin _ _ _ _ _ _ B E). cbn [filter]. assert (Qle_bool z (z1 - (1 # 10000)) = false) as ->; [|rewrite andb_false_r; reflexivity].
    apply not_true_iff_false. intros K. apply Qle_bool_iff in K. lra.
  - apply nth_overflow. apply nth_error_None. exact E.
Qed.
Print Assumptions C191_top_refuted.

(** The volume of every bin is positive, so each is drawn or left out by its number alone. *)
Theorem C191_volume V az areas z0 z1 bs zs j : is_volume V -> 0 < bs -> z0 <= z1 - (1 # 10000) -> areas <> [] -> (forall a, In a areas -> (0 < a)%R) ->
  (j < List.length (counts z0 z1 bs zs))%nat -> exists a v, In a areas /\ volume V az areas z0 z1 bs j = Ok v /\ (0 < v)%R /\ v = (V (low z0 bs j) (high z0 z1 bs j) * (a / 41252.961))%R.
Proof.
  intros [F [EV [INC PR]]] B Z NE POS J. rewrite counts_length in J. unfold volume, area_for.
  assert (L : (0 < List.length areas)%nat) by (destruct areas; [congruence|cbn; lia]).
  set (i := clipZ 0 (Z.of_nat (List.length areas) - 1) (Z.of_nat (ss_left az (center z0 bs j)))). assert (I : (0 <= i < Z.of_nat (List.length areas))%Z) by (unfold i, clipZ; lia).
  destruct (nth_error areas (Z.to_nat i)) as [a|] eqn:E; [|apply nth_error_None in E; lia]. assert (PY : py_index areas i = Ok a).
  { apply py_index_in; assumption. }
  rewrite PY. cbn [bind]. exists a. eexists. split; [eapply nth_error_In; exact E|]. split; [reflexivity|]. split; [|reflexivity].
  apply Rmult_lt_0_compat.
  - rewrite EV. pose proof (INC _ _ (low_high z0 z1 bs j B Z J)). Lra.lra.
  - apply Rdiv_lt_0_compat; [apply POS; eapply nth_error_In; exact E | unfold sky; Lra.lra].
Qed.
Print Assumptions C191_volume.
(** Without areas there is an error. *)
Theorem C191_no_area V az z0 z1 bs j : volume V az [] z0 z1 bs j = Err IndexError.
Proof.
  unfold volume, area_for. replace (clipZ 0 (Z.of_nat (@List.length R []) - 1) (Z.of_nat (ss_left az (center z0 bs j)))) with (-1)%Z; [reflexivity|]. unfold clipZ. cbn [List.length]. lia.
Qed.
Print Assumptions C191_no_area.
(** With one area for all redshifts the volumes of the bins add up to that of the range, or of as much of it as whole bins reach. *)
Theorem C191_total V a z0 z1 bs zs : is_volume V -> 0 < bs -> z0 <= z1 - (1 # 10000) -> exists vs, mapM (volume V [] [a] z0 z1 bs) (seq 0 (List.length (counts z0 z1 bs zs))) = Ok vs /\
  exists top, z1 - (1 # 10000) <= top <= z1 /\ sumR vs = (V z0 top * (a / 41252.961))%R.
Proof.
  intros [F [EV [INC PR]]] B Z. rewrite counts_length.
  assert (EACH : forall j, volume V [] [a] z0 z1 bs j = Ok (V (low z0 bs j) (high z0 z1 bs j) * (a / sky))%R).
  { intros j. unfold volume, area_for. replace (clipZ 0 _ _) with 0%Z; [reflexivity|]. unfold clipZ. cbn [List.length]. lia. }
  assert (ALL : forall l, mapM (volume V [] [a] z0 z1 bs) l = Ok (map (fun j => (V (low z0 bs j) (high z0 z1 bs j) * (a / sky))%R) l)).
  { induction l as [|j l IH]; [reflexivity|]. cbn [mapM]. rewrite EACH. cbn [bind]. rewrite IH. reflexivity. }
  eexists. split; [apply ALL|]. exists (Qmin2 (z0 + Qn (nb z0 z1 bs) * bs) z1). destruct (nb_spec z0 z1 bs B Z) as [_ [_ C]]. split.
  - unfold Qmin2. destruct (Qle_bool (z0 + Qn (nb z0 z1 bs) * bs) z1) eqn:L; [apply Qle_bool_iff in L | apply Qle_bool_false in L]; lra.
  - rewrite EV, <- (telescope_all F z0 z1 bs PR B Z). change 41252.961%R with sky. generalize (seq 0 (nb z0 z1 bs)). induction l as [|j l IH]; cbn; [Lra.lra|]. rewrite IH, EV. Lra.lra.
Qed.
Print Assumptions C191_total.
(** The plot has a point, drawn or not, at the middle of each bin, and its density follows from the number and the volume of that bin. *)
Theorem C191_plot V az areas z0 z1 bs zs pts : nz V az areas z0 z1 bs zs = Ok pts -> List.length pts = List.length (counts z0 z1 bs zs) /\
  forall j c p, nth_error pts j = Some (c, p) -> c == z0 + (Qn j + (1 # 2)) * bs /\ exists h v, nth_error (counts z0 z1 bs zs) j = Some h /\ volume V az areas z0 z1 bs j = Ok v /\ p = point h v.
Proof.
  unfold nz. set (cs := counts z0 z1 bs zs). intros H.
  assert (G : forall l k pts, mapM (fun jh => do v <- volume V az areas z0 z1 bs (fst jh); Ok (center z0 bs (fst jh), point (snd jh) v)) (combine (seq k (List.length l)) l) = Ok pts ->
    List.length pts = List.length l /\ forall j c p, nth_error pts j = Some (c, p) -> c = center z0 bs (k + j) /\ exists h v, nth_error l j = Some h /\ volume V az areas z0 z1 bs (k + j) = Ok v /\ p = point h v).
  { clear. induction l as [|h l IH]; intros k pts H; cbn [List.length seq combine mapM] in H.
    - injection H as <-. split; [reflexivity|]. intros [|j] c p E; discriminate E.
    - cbn [fst snd] in H. destruct (volume V az areas z0 z1 bs k) as [v|] eqn:EV; [|discriminate]. cbn [bind] in H. destruct (mapM _ (combine (seq (S k) _) l)) as [q|] eqn:EQ; [|discriminate]. cbn [bind] in H. injection H as <-.
      destruct (IH (S k) q EQ) as [L N]. split; [cbn; rewrite L; reflexivity|]. intros [|j] c p E; cbn [nth_error] in E.
      + injection E as <- <-. rewrite Nat.add_0_r. split; [reflexivity|]. exists h, v. auto.
      + replace (k + S j)%nat with (S k + j)%nat by lia. cbn [nth_error]. apply N. exact E. }
  destruct (G cs 0%nat pts H) as [L N]. split; [exact L|]. intros j c p E. destruct (N j c p E) as [-> X]. change (0 + j)%nat with j in *. split; [unfold center, Qn; field | exact X].
Qed.
Print Assumptions C191_plot.
Theorem C191_plots V az areas z0 z1 bs zs : areas <> [] -> exists pts, nz V az areas z0 z1 bs zs = Ok pts.
Proof.
  intros NE. unfold nz. assert (L : (0 < List.length areas)%nat) by (destruct areas; [congruence|cbn; lia]).
  assert (EACH : forall j, exists v, volume V az areas z0 z1 bs j = Ok v).
  { intros j. unfold volume, area_for. set (i := clipZ 0 _ _). assert (I : (0 <= i < Z.of_nat (List.length areas))%Z) by (unfold i, clipZ; lia).
    destruct (nth_error areas (Z.to_nat i)) as [a|] eqn:E; [|apply nth_error_None in E; lia]. assert (PY : py_index areas i = Ok a).
    { apply py_index_in; assumption. }
    rewrite PY. eexists. reflexivity. }
  induction (combine _ _) as [|jh l IH]; [eexists; reflexivity|]. cbn [mapM]. destruct (EACH (fst jh)) as [v ->]. cbn [bind]. destruct IH as [q ->]. eexists. reflexivity.
Qed.
Print Assumptions C191_plots.

(** A redshift drawn for a cluster is one of 100 from the lower end of its density up to, but not, the upper end. *)
Theorem C191_draw_range lo mid hi pz u v : lo < hi -> draw (lo :: mid ++ [hi]) pz u = Ok v -> lo <= v < hi.
Proof.
  intros LH H. unfold draw in H. assert (P1 : py_index (lo :: mid ++ [hi]) (-1) = Ok hi).
  { unfold py_index. cbv zeta. change (-1 <? 0)%Z with true. cbv iota.
    replace (-1 + Z.of_nat (List.length (lo :: mid ++ [hi])))%Z with (Z.of_nat (S (List.length mid))) by (cbn [List.length]; rewrite app_length; cbn [List.length]; lia).
    rewrite Nat2Z.id. cbn [nth_error]. rewrite nth_error_app2 by lia. rewrite Nat.sub_diag. cbn [nth_error].
    destruct (Z.ltb_spec (Z.of_nat (S (List.length mid))) 0); [lia|]. destruct (Z.leb_spec (Z.of_nat (List.length (lo :: mid ++ [hi]))) (Z.of_nat (S (List.length mid)))) as [K|_]; [cbn [List.length] in K; rewrite app_length in K; cbn [List.length] in K; lia|]. reflexivity. }
  rewrite P1 in H. cbn [bind] in H. change (py_index (lo :: mid ++ [hi]) 0) with (Ok lo) in H. cbn [bind] in H.
  destruct (mapM _ _) as [ys|]; [|discriminate]. cbn [bind] in H. destruct (Qeq_bool (Qsum ys) 0); [discriminate|]. unfold sample in H.
  destruct (sample_index ys u) as [k|]; [|discriminate]. destruct (nth_error (xvals lo hi) k) as [w|] eqn:E; [|discriminate]. injection H as <-.
  unfold xvals in E. rewrite nth_error_map in E. destruct (nth_error (seq 0 nsamp) k) as [i|] eqn:K; [|discriminate]. cbn [option_map] in E. injection E as <-.
  apply nth_error_In, in_seq in K. assert (A : 0 <= inject_Z (Z.of_nat i)) by (change 0 with (inject_Z 0); rewrite <- Zle_Qle; lia).
  assert (C : inject_Z (Z.of_nat i) < inject_Z (Z.of_nat nsamp)) by (rewrite <- Zlt_Qlt; unfold nsamp in *; lia). change (inject_Z (Z.of_nat nsamp)) with 100 in *.
  generalize dependent (inject_Z (Z.of_nat i)). intros q A C. assert (D : q / 100 == q * (1 # 100)) by reflexivity. assert (Q0 : 0 <= q / 100) by (rewrite D; lra). assert (Q1 : q / 100 < 1) by (rewrite D; lra).
  clear D. change (inject_Z 100) with 100. generalize dependent (q / 100). intros r Q0 Q1.
  assert (0 <= r * (hi - lo)) by (apply Qmult_le_0_compat; lra). assert (r * (hi - lo) < 1 * (hi - lo)) by (apply Qmult_lt_compat_r; lra). lra.
Qed.
Print Assumptions C191_draw_range.
Lemma Forall2_length_ {A B} (P : A -> B -> Prop) l m : Forall2 P l m -> List.length l = List.length m.
Proof. induction 1; cbn [List.length]; congruence. Qed.
(** Finding: one draw in a hundred gives the lower end of the density's range, however small the density is there. *)
Theorem C191_low_refuted lo mid hi pz ys u : py_index (lo :: mid ++ [hi]) (-1) = Ok hi -> mapM (interpol pz (lo :: mid ++ [hi])) (xvals lo hi) = Ok ys -> Forall (fun y => 0 <= y) ys -> 0 < Qsum ys ->
  0 <= u < 1 # 100 -> exists v, draw (lo :: mid ++ [hi]) pz u = Ok v /\ v == lo.
Proof.
  intros P1 M POS S [U0 U1]. unfold draw. rewrite P1. cbn [bind]. change (py_index (lo :: mid ++ [hi]) 0) with (Ok lo). cbn [bind]. rewrite M. cbn [bind].
  destruct (Qeq_bool (Qsum ys) 0) eqn:E; [apply Qeq_bool_iff in E; lra|].
  assert (L : List.length ys = nsamp) by (apply Ingest.mapM_ok in M; apply Forall2_length_ in M; rewrite <- M; unfold xvals; rewrite map_length, seq_length; reflexivity).
  assert (X : exists t, xvals lo hi = (inject_Z (Z.of_nat 0) / inject_Z (Z.of_nat nsamp) * (hi - lo) + lo) :: t) by (eexists; reflexivity). destruct X as [t X].
  eexists. split.
  - apply (PdfSample.C117_first_refuted _ _ t ys u X); [rewrite L; unfold xvals; rewrite map_length, seq_length; reflexivity | exact POS | exact S | exact U0 |].
    rewrite L. change (1 / inject_Z (Z.of_nat nsamp)) with (1 / 100). assert (E1 : 1 / 100 == 1 # 100) by reflexivity. rewrite E1. exact U1.
  - change (inject_Z (Z.of_nat 0)) with 0. unfold Qdiv. ring.
Qed.
Print Assumptions C191_low_refuted.
(** A density that is nowhere positive has no draw: an IndexError stops the plot of the whole catalogue. *)
Theorem C191_no_density lo mid hi pz ys u : py_index (lo :: mid ++ [hi]) (-1) = Ok hi -> mapM (interpol pz (lo :: mid ++ [hi])) (xvals lo hi) = Ok ys -> (forall y, In y ys -> y == 0) ->
  draw (lo :: mid ++ [hi]) pz u = Err IndexError.
Proof.
  intros P1 M Z. unfold draw. rewrite P1. cbn [bind]. change (py_index (lo :: mid ++ [hi]) 0) with (Ok lo). cbn [bind]. rewrite M. cbn [bind].
  assert (S : Qsum ys == 0). { clear M. induction ys as [|y t IH]; [reflexivity|]. unfold Qsum in *. cbn [fold_right]. rewrite (Z y) by (left; reflexivity). rewrite IH by (intros x X; apply Z; right; exact X). reflexivity. }
  apply Qeq_bool_iff in S. rewrite S. reflexivity.
Qed.
Print Assumptions C191_no_density.

(** Positions within an arc of at most 180 degrees, wherever it starts and also across 0, are drawn over no more than the length of the arc. *)
Theorem C192_arc ra start len : ra <> [] -> 0 <= start < 360 -> 0 <= len <= 180 -> on_arc start len ra ->
  exists l, ra_to_plot ra = Ok l /\ List.length l = List.length ra /\ forall a b, In a l -> In b l -> a - b <= len.
Proof.
  intros NE ST LEN ARC. destruct (extent_spec ra NE) as [d [E [D [da [db [DA [DB DE]]]]]]].
  set (rot := map (fun x => mod360 (x + 180)) ra). assert (NR : rot <> []) by (unfold rot; destruct ra; [congruence|discriminate]).
  destruct (extent_spec rot NR) as [d' [E' [D' [ra' [rb' [RA [RB RE]]]]]]]. unfold ra_to_plot. rewrite E. cbn [bind]. fold rot. rewrite E'. cbn [bind].
  assert (GOOD : d <= len \/ d' <= len).
  { destruct (Qlt_le_dec (start + len) 360) as [G|G].
    - left. assert (X : forall x, In x ra -> start <= x <= start + len). { intros x X. destruct (ARC x X) as [[X0 X1] [t [[T0 T1] [EX|EX]]]]; lra. }
      pose proof (X da DA). pose proof (X db DB). lra.
    - right. assert (X : forall y, In y rot -> start - 180 <= y <= start - 180 + len).
      { intros y Y. apply in_map_iff in Y. destruct Y as [x [<- X]]. destruct (ARC x X) as [[X0 X1] [t [[T0 T1] [EX|EX]]]].
        - assert (M : mod360 (x + 180) == x + 180 - 360 * inject_Z 1) by (apply mod360_eq; change (inject_Z 1) with 1; lra). change (inject_Z 1) with 1 in M. lra.
        - assert (M : mod360 (x + 180) == x + 180 - 360 * inject_Z 0) by (apply mod360_eq; change (inject_Z 0) with 0; lra). change (inject_Z 0) with 0 in M. lra. }
      pose proof (X ra' RA). pose proof (X rb' RB). lra. }
  destruct (Qlt_bool d' d) eqn:C.
  - apply Qlt_bool_iff in C. exists rot. split; [reflexivity|]. split; [apply map_length|]. intros a b A B. specialize (D' a b A B). destruct GOOD; lra.
  - apply Qlt_bool_false in C. exists ra. split; [reflexivity|]. split; [reflexivity|]. intros a b A B. specialize (D a b A B). destruct GOOD; lra.
Qed.
Print Assumptions C192_arc.
(** Whatever the positions, what is drawn are the positions themselves or all of them turned by 180 degrees, whichever take less room. *)
Theorem C192_choice ra l : ra_to_plot ra = Ok l -> (l = ra \/ l = map (fun x => mod360 (x + 180)) ra) /\
  exists d, extent l = Ok d /\ (exists d1, extent ra = Ok d1 /\ d <= d1) /\ (exists d2, extent (map (fun x => mod360 (x + 180)) ra) = Ok d2 /\ d <= d2).
Proof.
  unfold ra_to_plot. destruct (extent ra) as [d|] eqn:E; [|discriminate]. cbn [bind]. destruct (extent (map _ ra)) as [d'|] eqn:E'; [|discriminate]. cbn [bind]. intros I. injection I as <-.
  destruct (Qlt_bool d' d) eqn:C; [apply Qlt_bool_iff in C | apply Qlt_bool_false in C]; (split; [auto|]).
  - exists d'. split; [exact E'|]. split; [exists d; split; [reflexivity|lra] | exists d'; split; [reflexivity|lra]].
  - exists d. split; [exact E|]. split; [exists d; split; [reflexivity|lra] | exists d'; split; [reflexivity|lra]].
Qed.
Print Assumptions C192_choice.
Theorem C192_turned x : 0 <= mod360 x < 360 /\ exists k, x == mod360 x + 360 * inject_Z k.
Proof.
  unfold mod360. pose proof (Qfloor_le (x / 360)) as F1. pose proof (Qlt_floor (x / 360)) as F2. rewrite inject_Z_plus in F2. change (inject_Z 1) with 1 in F2.
  assert (E : x == x / 360 * 360) by field. split; [split|exists (Qfloor (x / 360))]; lra.
Qed.
Print Assumptions C192_turned.
(** Finding: an empty catalogue has no range and is an error. *)
Theorem C192_empty_refuted ra : ra_to_plot ra = Err ValueError <-> ra = [].
Proof.
  split; [|intros ->; reflexivity]. destruct ra as [|x t]; [reflexivity|]. unfold ra_to_plot. cbn [extent map bind]. discriminate.
Qed.
Print Assumptions C192_empty_refuted.

Example C191_ex : counts (1#10) (3#10) (1#10) [15#100; 12#100; 25#100; 299999#1000000; 5#10] = [2; 1]%nat /\ (exists v, draw [1#10; 2#10; 3#10] [1; 2; 1] (1#200) = Ok v /\ v == 1#10) /\
  (exists p, point 100 2 = Some p /\ p = (100 / 2 * 10000, sqrt 100 / 2 * 10000)%R) /\ point 25 2 = None.
Proof.
  split; [vm_compute; reflexivity|]. split.
  { assert (M : exists ys, mapM (interpol [1; 2; 1] ((1#10) :: [2#10] ++ [3#10])) (xvals (1#10) (3#10)) = Ok ys /\ forallb (Qle_bool 1) ys = true /\ Qle_bool (Qsum ys) 0 = false) by (eexists; split; [vm_compute; reflexivity|]; split; vm_compute; reflexivity).
    destruct M as [ys [M [POS S]]]. apply (C191_low_refuted (1#10) [2#10] (3#10) [1; 2; 1] ys); [reflexivity | exact M | | | split; [discriminate | reflexivity]].
    - apply Forall_forall. intros y Y. rewrite forallb_forall in POS. apply POS, Qle_bool_iff in Y. lra.
    - apply Qnot_le_lt. intros K. apply Qle_bool_iff in K. congruence. }
  split.
  - rewrite point_spec by Lra.lra. cbn [Nat.ltb Nat.leb]. eexists. split; [reflexivity|]. replace (INR 100) with 100%R by (rewrite INR_IZR_INZ; reflexivity). reflexivity.
  - rewrite point_spec by Lra.lra. reflexivity.
Qed.
Example C192_ex : exists l, ra_to_plot [359; 1; 10] = Ok l /\ forall a b, In a l -> In b l -> a - b <= 11.
Proof. eexists. split; [vm_compute; reflexivity|]. intros a b A B. cbn in A, B. repeat destruct A as [<-|A]; repeat destruct B as [<-|B]; try contradiction; vm_compute; discriminate. Qed.
