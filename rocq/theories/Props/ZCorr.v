(** C23: redshift corrections. *)
From Coq Require Import Reals Lra.
From Verif.Base Require Import Py PyLemmas.
From Verif.Model Require Import ZCorr.
From Verif.Spec Require Import ZCorr.
From Verif.Proofs Require Import ZCorr.
Local Open Scope R_scope.

(** Whatever the options, a returned error is not smaller than the error given. *)
Theorem C23_error_not_reduced : forall simps c noerr z e p z' e' p',
  apply_correction simps c noerr z e p = Ok (z', e', p') -> e <= e'.
Proof. intros simps c noerr z e p z' e' p' H. apply (from_err simps c noerr (c_niter c) 0%nat (z, e, p) (z', e', p') H). Qed.
Print Assumptions C23_error_not_reduced.
(** Without p(z) and with error correction every call succeeds. *)
Theorem C23_without_pz : forall simps c z e, exists z' e', apply_correction simps c false z e None = Ok (z', e', None).
Proof. intros. apply from_nopz. Qed.
Print Assumptions C23_without_pz.
(** With p(z) on a uniform grid of at least two points every call succeeds: the result is the same distribution up to
    a factor, on a uniform grid of the same size and at least the old spacing, with unit integral, and for an odd
    number of points its middle keeps its distance from the redshift. *)
Theorem C23_with_pz : forall simps c noerr z e bins vals h, rhomogeneous simps -> 0 < e -> List.length vals = List.length bins ->
  (2 <= List.length bins)%nat -> runiform (List.length bins) h bins -> positive_mass simps vals -> c_niter c <> 0%nat ->
  exists z' e' bins' vals' k, apply_correction simps c noerr z e (Some (bins, vals)) = Ok (z', e', Some (bins', vals')) /\
    0 < k /\ vals' = map (fun v => v / k) vals /\ List.length bins' = List.length bins /\
    (exists h', h <= h' /\ runiform (List.length bins) h' bins') /\ e <= e' /\ simps vals' bins' = 1 /\
    (forall m d, List.length bins = (2 * m + 1)%nat -> middle_at z d bins -> middle_at z' d bins').
Proof.
  intros simps c noerr z e bins vals h HS He Hl Hn U Hm Hi.
  destruct (from_pz simps c noerr (c_niter c) 0%nat z e bins vals h HS He Hl Hn U Hm)
    as (z' & e' & b' & v' & k & E & Hk & _ & Hv & Lb & G & He' & S & M).
  exists z', e', b', v', k. repeat split; auto.
Qed.
Print Assumptions C23_with_pz.
(** Without p(z), asking for no error correction is a TypeError. *)
Theorem C23_noerr_refuted : forall simps c z e, c_niter c <> 0%nat -> apply_correction simps c true z e None = Err TypeError.
Proof. intros simps c z e H. unfold apply_correction. destruct (c_niter c); [congruence|]. reflexivity. Qed.
Print Assumptions C23_noerr_refuted.
(** With p(z) the option has no effect: the error is enlarged all the same. *)
Theorem C23_noerr_ignored_refuted : forall simps c z e p z' e' p', c_niter c <> 0%nat -> c_xe c 0 z <> 0 ->
  apply_correction simps c true z e (Some p) = Ok (z', e', p') -> e < e'.
Proof.
  intros simps c z e p z' e' p' Hn Hx. unfold apply_correction. destruct (c_niter c) as [|n]; [congruence|]. cbn [corr_from].
  unfold corr_step at 1. cbv zeta. destruct (pz_step _ _ _ _ _ p) as [p1|]; [|discriminate]. cbn [bind]. intros H.
  pose proof (from_err _ _ _ _ _ _ _ H) as G. unfold err3 in G. cbn [fst snd] in G. pose proof (sqrt_gt e (c_xe c 0 z) Hx). lra.
Qed.
Print Assumptions C23_noerr_ignored_refuted.

(** a sum as integration rule, three points *)
Example C23_hyps : let simps := fun (ys _ : list R) => fold_right Rplus 0 ys in
  rhomogeneous simps /\ runiform 3 1 [0; 1; 2] /\ positive_mass simps [1; 2; 1] /\ middle_at 1 0 [0; 1; 2].
Proof.
  cbv zeta. split; [|split; [|split]].
  - intros k ys _. induction ys as [|y ys IH]; cbn [map fold_right]; [unfold Rdiv; ring|]. rewrite IH. unfold Rdiv. ring.
  - split; [lra|]. split; [reflexivity|]. exists 0. intros [|[|[|i]]] x; cbn; intros H; try (destruct i; discriminate); injection H as <-; ring.
  - intros h g _. cbn. lra.
  - unfold middle_at. cbn. f_equal. ring.
Qed.

(** A redshift distribution of fewer than two points cannot be corrected. *)
Theorem C23_few_bins : forall simps c noerr z e bins vals, c_niter c <> 0%nat -> (List.length bins < 2)%nat ->
  apply_correction simps c noerr z e (Some (bins, vals)) = Err IndexError.
Proof.
  intros simps c noerr z e bins vals N L. unfold apply_correction. destruct (c_niter c) as [|n]; [congruence|]. cbn [corr_from corr_step].
  unfold pz_step. destruct bins as [|a [|b r]]; [reflexivity|reflexivity|cbn in L; lia].
Qed.
Print Assumptions C23_few_bins.
