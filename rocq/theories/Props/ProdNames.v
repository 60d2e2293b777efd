(** C144: the names of masks and random catalogs tell them apart. *)
From Coq Require Import QArith Qround String Ascii.
From Verif.Base Require Import Py PyLemmas.
From Verif.Model Require Import Names Util ProdNames.
From Verif.Spec Require Import ProdNames.
From Verif.Proofs Require Import Names RunAll ProdNames.
From Coq Require Import Lqa Lia List. Import ListNotations.
Local Open Scope list_scope.

(** Two luminosity cuts have the same volume-limit mask file exactly if they agree to a tenth (rounded down). *)
Theorem C144_vlim_names base l1 l2 : (0 <= l1)%Q -> (0 <= l2)%Q -> (vlim_name base l1 = vlim_name base l2 <-> Qfloor (l1 * 10) = Qfloor (l2 * 10)).
Proof.
  intros A B. unfold vlim_name. destruct (int_floor l1 10 A ltac:(lia)) as [E1 P1]. destruct (int_floor l2 10 B ltac:(lia)) as [E2 P2]. change (inject_Z 10) with 10%Q in *. rewrite <- E1, <- E2. split.
  - intros E. apply app_inv_head in E. apply app_inv_head in E. apply field_eq in E; [tauto|assumption|assumption|reflexivity|reflexivity].
  - intros ->. reflexivity.
Qed.
Print Assumptions C144_vlim_names.
(** With no file there, or one made for these arguments, the mask in use is the one built for the cut asked for; it is kept for
    the next time. *)
Theorem C144_vlim_partial d base l geo build d' t : vlim_init d base l None geo build = Ok (d', t) -> d (vlim_name base l) = [] ->
  build geo l = Ok t /\ vlim_init d' base l None geo build = Ok (d', t) /\ forall n, n <> vlim_name base l -> d' n = d n.
Proof.
  unfold vlim_init. intros H E. rewrite E in H. destruct (build geo l) as [t'|e]; [|discriminate]. cbn [bind] in H. assert (t' = t /\ d' = add d (vlim_name base l) t) as [-> ->] by (split; congruence). split; [reflexivity|]. rewrite add_same, E. cbn. split; [reflexivity|]. intros n N. apply add_other, N.
Qed.
Print Assumptions C144_vlim_partial.
(** Finding: a second cut within the same tenth silently uses the mask of the first, and so does a mask asked for without depth
    (use_geometry) after one with, and the reverse. *)
Theorem C144_vlim_stale_refuted d base l1 l2 geo1 geo2 build1 build2 d1 t1 : (0 <= l1)%Q -> (0 <= l2)%Q -> Qfloor (l1 * 10) = Qfloor (l2 * 10) ->
  vlim_init d base l1 None geo1 build1 = Ok (d1, t1) -> vlim_init d1 base l2 None geo2 build2 = Ok (d1, t1).
Proof.
  intros A B E H. apply (C144_vlim_names base l1 l2 A B) in E. unfold vlim_init in *. rewrite <- E. destruct (d (vlim_name base l1)) as [|t r] eqn:Ed.
  - destruct (build1 geo1 l1) as [t'|e]; [|discriminate]. cbn [bind] in H. assert (t' = t1 /\ d1 = add d (vlim_name base l1) t1) as [-> ->] by (split; congruence). rewrite add_same, Ed. reflexivity.
  - assert (t = t1 /\ d1 = d) as [-> ->] by (split; congruence). rewrite Ed. reflexivity.
Qed.
Print Assumptions C144_vlim_stale_refuted.

(** The weighted randoms of two requests have the same file exactly if the hundredths of the configured redshift range, the whole
    richnesses, the presence of a bin and the tenths of the luminosity cut agree. *)
Theorem C144_weights_names base a1 a2 : sensible_args a1 -> sensible_args a2 ->
  (weights_name base a1 = weights_name base a2 <-> digits_of a1 = digits_of a2) /\ (area_name base a1 = area_name base a2 <-> digits_of a1 = digits_of a2).
Proof.
  intros S1 S2. unfold weights_name, area_name. split.
  - rewrite <- (weights_iff a1 a2 (s_ ".fit") S1 S2 eq_refl). split; [intros E; do 2 apply app_inv_head in E; exact E|intros ->; reflexivity].
  - rewrite <- (weights_iff a1 a2 (s_ "_area.fit") S1 S2 eq_refl). split; [intros E; do 2 apply app_inv_head in E; exact E|intros ->; reflexivity].
Qed.
Print Assumptions C144_weights_names.
(** Into a directory without these files the two tables are written under the names returned, and nothing else changes.
    (Missing: a file already there, next theorem.) *)
Theorem C144_weights_partial d base a weigh d' n1 n2 : weigh_run d base a weigh = Ok (d', (n1, n2)) -> d (weights_name base a) = [] -> d (area_name base a) = [] ->
  exists t1 t2, weigh a = Ok (t1, t2) /\ read1 d' n1 = Ok t1 /\ read1 d' n2 = Ok t2 /\ forall n, n <> n1 -> n <> n2 -> d' n = d n.
Proof.
  unfold weigh_run. destruct (weigh a) as [[t1 t2]|e]; [|discriminate]. cbn [bind fst snd]. intros H E1 E2. assert (N1 : n1 = weights_name base a) by congruence. assert (N2 : n2 = area_name base a) by congruence. assert (D : d' = add (add d (weights_name base a) t1) (area_name base a) t2) by congruence. subst n1 n2 d'.
  exists t1, t2. split; [reflexivity|]. pose proof (names_differ base a) as N. unfold read1. split; [rewrite add_other by congruence; rewrite add_same, E1; reflexivity|]. split; [rewrite add_same, add_other by congruence; rewrite E2; reflexivity|]. intros n A B. rewrite !add_other by congruence. reflexivity.
Qed.
Print Assumptions C144_weights_partial.
(** Finding: the redshift range given as argument is not part of the name, so the files returned for a second range hold (in the
    table that is read) the random points and areas of the first. *)
Theorem C144_zrange_refuted d base conf zr1 zr2 m b l w d1 n1 n2 d2 n3 n4 : let a1 := mkWargs conf zr1 m b l in let a2 := mkWargs conf zr2 m b l in
  weigh_run d base a1 w = Ok (d1, (n1, n2)) -> weigh_run d1 base a2 w = Ok (d2, (n3, n4)) -> n3 = n1 /\ n4 = n2 /\ read1 d2 n3 = read1 d1 n1 /\ read1 d2 n4 = read1 d1 n2.
Proof.
  cbv zeta. intros H1 H2. unfold weigh_run in H1, H2. destruct (w (mkWargs conf zr1 m b l)) as [[t1 t2]|e]; [|discriminate]. destruct (w (mkWargs conf zr2 m b l)) as [[t3 t4]|e]; [|discriminate]. cbn [bind fst snd] in H1, H2.
  pose proof (names_differ base (mkWargs conf zr1 m b l)) as N.
  change (weights_name base (mkWargs conf zr2 m b l)) with (weights_name base (mkWargs conf zr1 m b l)) in H2. change (area_name base (mkWargs conf zr2 m b l)) with (area_name base (mkWargs conf zr1 m b l)) in H2.
  set (f1 := weights_name base (mkWargs conf zr1 m b l)) in *. set (f2 := area_name base (mkWargs conf zr1 m b l)) in *. clearbody f1 f2.
  assert (n1 = f1 /\ n2 = f2 /\ d1 = add (add d f1 t1) f2 t2) as (-> & -> & ->) by (repeat split; congruence). assert (n3 = f1 /\ n4 = f2 /\ d2 = add (add (add (add d f1 t1) f2 t2) f1 t3) f2 t4) as (-> & -> & ->) by (repeat split; congruence).
  split; [reflexivity|]. split; [reflexivity|]. unfold read1. repeat (rewrite ?add_same, ?(add_other _ f2 _ f1), ?(add_other _ f1 _ f2) by congruence). split.
  - destruct (d f1); reflexivity.
  - destruct (d f2); reflexivity.
Qed.
Print Assumptions C144_zrange_refuted.
Example C144_example : let a := mkWargs (1#10, 9#10)%Q None 20 (Some (20, 30)%Q) (2#10) in
  weights_base a = s_ "weighted_randoms_z010-090_lgt020_l020-030_vl02" /\ vlim_name (s_ "run") (2#10) = s_ "run_vl02_vlim_zmask.fit" /\ vlim_name (s_ "run") (25#100) = s_ "run_vl02_vlim_zmask.fit" /\ sensible_args a.
Proof. cbv zeta. split; [vm_compute; reflexivity|]. split; [vm_compute; reflexivity|]. split; [vm_compute; reflexivity|]. unfold sensible_args. cbn. repeat split; unfold Qle; cbn; lia. Qed.
