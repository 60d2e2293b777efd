From Coq Require Import QArith Qround Sorted.
From Verif.Base Require Import Py PyLemmas.
From Verif.Model Require Import Galfile Util RedCal RedArea.
From Verif.Spec Require Import RedArea.
From Verif.Proofs Require Import Util Ingest.
From Coq Require Import Lqa Lia List. Import ListNotations.
Local Open Scope Q_scope.

Lemma ss_left_le zs z : (ss_left zs z <= List.length zs)%nat.
Proof. unfold ss_left. induction zs as [|y t IH]; cbn; [lia|]. destruct (Qlt_bool y z); cbn; lia. Qed.
Lemma area_found zs areas z : StronglySorted Qle zs -> List.length areas = List.length zs -> (exists y, In y zs /\ z <= y) ->
  exists k y a, nth_error zs k = Some y /\ nth_error areas k = Some a /\ z <= y /\ (forall j x, (j < k)%nat -> nth_error zs j = Some x -> x < z) /\ area_at zs areas z = Ok a.
Proof.
  intros S L (y & Hy & Hz). apply In_nth_error in Hy. destruct Hy as (i & Hi).
  assert (K : (ss_left zs z <= i)%nat). { destruct (Nat.le_gt_cases (ss_left zs z) i) as [|H]; [assumption|]. apply (ss_left_spec zs z i y S Hi) in H. lra. }
  assert (Hk : (ss_left zs z < List.length zs)%nat) by (assert (i < List.length zs)%nat by (apply nth_error_Some; congruence); lia).
  destruct (nth_error zs (ss_left zs z)) as [w|] eqn:Ew; [|apply nth_error_None in Ew; lia].
  destruct (nth_error areas (ss_left zs z)) as [a|] eqn:Ea; [|apply nth_error_None in Ea; lia].
  exists (ss_left zs z), w, a. repeat split; auto.
  - destruct (Qlt_le_dec w z) as [H|H]; [|exact H]. apply (ss_left_spec zs z _ w S Ew) in H. lia.
  - intros j x Hj Hx. apply (ss_left_spec zs z j x S Hx). exact Hj.
  - unfold area_at. rewrite Ea. reflexivity.
Qed.
Lemma area_lost zs areas z : StronglySorted Qle zs -> List.length areas = List.length zs -> (forall y, In y zs -> y < z) -> area_at zs areas z = Err IndexError.
Proof.
  intros S L H. unfold area_at. assert (E : (ss_left zs z = List.length zs)%nat).
  { destruct (Nat.eq_dec (ss_left zs z) (List.length zs)) as [|N]; [assumption|]. pose proof (ss_left_le zs z). assert (Hk : (ss_left zs z < List.length zs)%nat) by lia.
    destruct (nth_error zs (ss_left zs z)) as [w|] eqn:Ew; [|apply nth_error_None in Ew; lia]. assert (X : (ss_left zs z < ss_left zs z)%nat) by (apply (ss_left_spec zs z _ w S Ew), H; apply nth_error_In in Ew; exact Ew). lia. }
  rewrite E, <- L, (proj2 (nth_error_None areas (List.length areas))) by lia. reflexivity.
Qed.
Lemma area_only zs areas z e : area_at zs areas z = Err e -> e = IndexError.
Proof. unfold area_at. destruct (nth_error _ _); [discriminate|]. congruence. Qed.

(** the grid of the table *)
Lemma grid_sorted z0 z1 fine : 0 < fine -> StronglySorted Qle (area_zs z0 z1 fine).
Proof.
  intros F. unfold area_zs. rewrite arange_eq. generalize (Z.to_nat (Qceiling ((z1 - z0) / fine))) as n. intros n. generalize 0%nat. induction n as [|n IH]; intros k; cbn; constructor.
  - apply IH.
  - apply Forall_forall. intros y Hy. apply in_map_iff in Hy. destruct Hy as (i & <- & Hi). apply in_seq in Hi. pose proof (step_lt z0 fine k i F). assert (step_at z0 fine k < step_at z0 fine i) by (apply H; lia). lra.
Qed.
Lemma grid_below z0 z1 fine y : 0 < fine -> In y (area_zs z0 z1 fine) -> y < z1.
Proof.
  intros F H. destruct (Qlt_le_dec z0 z1) as [L|L]; [|unfold area_zs in H; rewrite arange_empty in H by assumption; destruct H].
  destruct (arange_count z0 z1 fine F L) as (k & E & A & B). unfold area_zs in H. rewrite arange_eq, E in H. apply in_map_iff in H. destruct H as (i & <- & Hi). apply in_seq in Hi.
  destruct (Nat.eq_dec i k) as [->|N]; [exact A|]. pose proof (step_lt z0 fine i k F). assert (step_at z0 fine i < step_at z0 fine k) by (apply H; lia). lra.
Qed.
Lemma grid_top z0 z1 fine : 0 < fine -> z0 < z1 -> exists y, In y (area_zs z0 z1 fine) /\ z1 - fine <= y.
Proof.
  intros F L. destruct (arange_count z0 z1 fine F L) as (k & E & A & B). exists (step_at z0 fine k). split; [|lra]. unfold area_zs. rewrite arange_eq, E. apply in_map. apply in_seq. lia.
Qed.
Lemma grid_step z0 z1 fine k x y : nth_error (area_zs z0 z1 fine) k = Some x -> nth_error (area_zs z0 z1 fine) (S k) = Some y -> y == x + fine.
Proof.
  unfold area_zs. rewrite arange_eq, !nth_error_map. intros A B. set (n := Z.to_nat (Qceiling ((z1 - z0) / fine))) in *.
  destruct (nth_error (seq 0 n) k) as [i|] eqn:Ei; [|discriminate]. destruct (nth_error (seq 0 n) (S k)) as [j|] eqn:Ej; [|discriminate]. cbn in A, B. injection A as <-. injection B as <-.
  assert (i = k /\ j = S k) as [-> ->].
  { assert (Hk : (S k < n)%nat) by (rewrite <- (seq_length n 0); apply nth_error_Some; congruence). pose proof (nth_error_nth _ _ 0%nat Ei) as X. pose proof (nth_error_nth _ _ 0%nat Ej) as Y. rewrite seq_nth in X, Y by lia. lia. }
  apply step_S.
Qed.

Lemma mapM_lost {B} (f : Q -> res B) l x : (forall y e, f y = Err e -> e = IndexError) -> In x l -> f x = Err IndexError -> mapM f l = Err IndexError.
Proof.
  intros U. induction l as [|y l IH]; intros H E; [contradiction|]. cbn [mapM]. destruct (f y) as [b|e] eqn:Ey; [|rewrite (U y e Ey); reflexivity]. cbn [bind].
  destruct H as [->|H]; [congruence|]. rewrite (IH H E). reflexivity.
Qed.
Lemma mapM_found {B} (f : Q -> res B) l : (forall x, In x l -> exists b, f x = Ok b) -> exists r, mapM f l = Ok r.
Proof.
  induction l as [|y l IH]; intros H; [eexists; reflexivity|]. destruct (H y (or_introl eq_refl)) as (b & E). destruct IH as (r & Er); [intros; apply H; right; assumption|].
  exists (b :: r). cbn [mapM]. rewrite E, Er. reflexivity.
Qed.
Lemma mapM_const {A B} (f : A -> res B) l b : (forall x, In x l -> f x = Ok b) -> mapM f l = Ok (repeat b (List.length l)).
Proof. induction l as [|y l IH]; intros H; [reflexivity|]. cbn. rewrite (H y (or_introl eq_refl)), IH by (intros; apply H; right; assumption). reflexivity. Qed.

Lemma centres_total V bs lo a n : additive V -> proper V ->
  Qsum (map (fun za => bin_volume V bs (fst za) (snd za)) (combine (centres lo bs n) (repeat a n))) == V lo (lo + inject_Z (Z.of_nat n) * bs) * (a / sky).
Proof.
  intros HA HP. unfold centres. assert (G : forall k, Qsum (map (fun za => bin_volume V bs (fst za) (snd za)) (combine (map (fun i => inject_Z (Z.of_nat i) * bs + lo + bs / 2) (seq k n)) (repeat a n)))
    == V (lo + inject_Z (Z.of_nat k) * bs) (lo + inject_Z (Z.of_nat (k + n)) * bs) * (a / sky)).
  { induction n as [|n IH]; intros k.
    - cbn. rewrite Nat.add_0_r. assert (Z : V (lo + inject_Z (Z.of_nat k) * bs) (lo + inject_Z (Z.of_nat k) * bs) == 0) by (pose proof (HA (lo + inject_Z (Z.of_nat k) * bs) (lo + inject_Z (Z.of_nat k) * bs) (lo + inject_Z (Z.of_nat k) * bs)); lra). rewrite Z. ring.
    - cbn [seq map repeat combine]. change (Qsum (?x :: ?l)) with (x + Qsum l). rewrite IH. cbn [fst snd]. unfold bin_volume.
      rewrite (HP (inject_Z (Z.of_nat k) * bs + lo + bs / 2 - bs / 2) (inject_Z (Z.of_nat k) * bs + lo + bs / 2 + bs / 2) (lo + inject_Z (Z.of_nat k) * bs) (lo + inject_Z (Z.of_nat (S k)) * bs)).
      + replace (S k + n)%nat with (k + S n)%nat by lia. rewrite <- (HA (lo + inject_Z (Z.of_nat k) * bs) (lo + inject_Z (Z.of_nat (S k)) * bs) (lo + inject_Z (Z.of_nat (k + S n)) * bs)). ring.
      + field.
      + rewrite Nat2Z.inj_succ. unfold Z.succ. rewrite inject_Z_plus. change (inject_Z 1) with 1. field. }
  rewrite G. cbn [Nat.add]. rewrite (HP (lo + inject_Z (Z.of_nat 0) * bs) (lo + inject_Z (Z.of_nat n) * bs) lo (lo + inject_Z (Z.of_nat n) * bs)); [reflexivity| |reflexivity]. change (inject_Z (Z.of_nat 0)) with 0. ring.
Qed.
