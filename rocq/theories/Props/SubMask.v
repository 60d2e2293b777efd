(** C196: the part of a HEALPix map around a pixel.  C197: the arrays given to the richness solver. *)
From Coq Require Import ZArith List Sorting.Sorted.
From Verif.Base Require Import Py PyLemmas.
From Verif.Model Require Import SubMask.
From Verif.Spec Require Import SubMask.
From Verif.Proofs Require Import SubMask.
From Coq Require Import Lia. Import ListNotations.
Local Open Scope Z_scope.

(** The size of the reference pixels: a quarter of the pixel's, not coarser than 256 and not finer than the map. *)
Theorem C196_reference a b : 0 <= a -> 0 <= b -> cutref (2^a) (2^b) = 2^(Z.min (Z.max (a + 2) 8) b).
Proof. exact (cutref_pow a b). Qed.
Print Assumptions C196_reference.
(** Positions are those of the given pixels whose reference pixel is in the pixel or, with a border, in a disc about a point of its boundary; each comes once, in order. *)
Theorem C196_selected g s h border m hpix : StronglySorted lt (subpix_indices g s h border m hpix) /\ forall i, In i (subpix_indices g s h border m hpix) <->
  exists p, nth_error hpix i = Some p /\ let c := cutref s m in let q := m_in g m c p in
    (0 <= q < 12 * c * c /\ m_in g c s q = h) \/ (border = true /\ exists pt, In pt (m_edge g s h (c / s)) /\ In q (m_disc g c pt)).
Proof.
  split; [apply where_from_sorted|]. intros i. rewrite subpix_In. split; intros (p & H & K); exists p; (split; [exact H|]); apply region_In; exact K.
Qed.
Print Assumptions C196_selected.
(** For a map at least as fine as the pixel, the part without a border has exactly the pixels of the map in the pixel.  Missing: coarser maps (C196_coarse_refuted). *)
Theorem C196_exact_partial g a b h hpix i : healpix_laws g -> 0 <= a <= b -> Forall (fun p => 0 <= p < 12 * (2^b * 2^b)) hpix ->
  In i (subpix_indices g (2^a) h false (2^b) hpix) <-> exists p, nth_error hpix i = Some p /\ m_in g (2^b) (2^a) p = h.
Proof.
  intros L A F. assert (C := cutref_pow a b (proj1 A) ltac:(lia)). set (c := Z.min (Z.max (a + 2) 8) b) in *. rewrite subpix_In, C.
  split; intros (p & H & K); exists p; (split; [exact H|]); assert (P : 0 <= p < 12 * (2^b * 2^b)) by (apply (proj1 (Forall_forall _ _) F); eapply nth_error_In; exact H).
  - apply region_In in K as [[_ K]|[K _]]; [|discriminate]. rewrite (l_nest g L) in K by lia. exact K.
  - apply region_In. left. split; [unfold npix; rewrite <- Z.mul_assoc; apply (l_range g L); lia|]. rewrite (l_nest g L) by lia. exact K.
Qed.
Print Assumptions C196_exact_partial.
(** So each pixel of the map is in the part of one pixel, and one only. *)
Theorem C196_once_partial g a b hpix i : healpix_laws g -> 0 <= a <= b -> Forall (fun p => 0 <= p < 12 * (2^b * 2^b)) hpix -> (i < length hpix)%nat ->
  exists! h, In i (subpix_indices g (2^a) h false (2^b) hpix).
Proof.
  intros L A F I. destruct (nth_error hpix i) as [p|] eqn:E; [|apply nth_error_None in E; lia]. exists (m_in g (2^b) (2^a) p). split.
  - apply (C196_exact_partial g a b _ hpix i L A F). exists p. split; [exact E|reflexivity].
  - intros h H. apply (C196_exact_partial g a b _ hpix i L A F) in H as (q & Q & H). congruence.
Qed.
Print Assumptions C196_once_partial.
(** A border loses nothing. *)
Theorem C196_border g s h m hpix i : In i (subpix_indices g s h false m hpix) -> In i (subpix_indices g s h true m hpix).
Proof. rewrite !subpix_In. intros (p & H & K). exists p. split; [exact H|]. apply region_In. apply region_In in K as [K|[K _]]; [left; exact K|discriminate]. Qed.
Print Assumptions C196_border.
(** These positions are what is returned if there are any. *)
Theorem C196_result g s h border m hpix l : cut_map g s h border m hpix = Ok l -> l = subpix_indices g s h border m hpix.
Proof. unfold cut_map. destruct (region _ _ _ _ _), hpix; intros H; try discriminate. injection H as <-. reflexivity. Qed.
Print Assumptions C196_result.
Theorem C196_succeeds g s h border m hpix i : In i (subpix_indices g s h border m hpix) -> cut_map g s h border m hpix = Ok (subpix_indices g s h border m hpix).
Proof.
  intros H. assert (K := H). apply subpix_In in K as (p & P & R). unfold cut_map. destruct (region _ _ _ _ _); [destruct R|]. destruct hpix; [destruct i; discriminate|]. reflexivity.
Qed.
Print Assumptions C196_succeeds.
(** Finding: an empty part of a map is an error and not an empty list. *)
Theorem C196_empty_refuted g s h border m : cut_map g s h border m [] = Err ValueError.
Proof. unfold cut_map. destruct (region _ _ _ _ _); reflexivity. Qed.
Print Assumptions C196_empty_refuted.
(** Finding: with a map that is coarser than the pixel, the cut at a pixel without the center of a map pixel is an error, although the pixel is inside one. *)
Theorem C196_coarse_refuted g a b h hpix : 0 <= b < a -> (forall q, 0 <= q < 12 * (2^b * 2^b) -> m_in g (2^b) (2^a) q <> h) -> cut_map g (2^a) h false (2^b) hpix = Err ValueError.
Proof.
  intros A N. assert (C := cutref_pow a b ltac:(lia) ltac:(lia)). rewrite Z.min_r in C by lia. unfold cut_map. rewrite C. destruct (region _ _ _ _ _) as [|q t] eqn:E; [reflexivity|]. exfalso.
  assert (I : In q (region g (2^b) (2^a) h false)) by (rewrite E; left; reflexivity). apply region_In in I as [[K1 K2]|[K _]]; [|discriminate].
  unfold npix in K1. rewrite <- Z.mul_assoc in K1. exact (N _ K1 K2).
Qed.
Print Assumptions C196_coarse_refuted.

(** A solver exists exactly for four arrays of one length and four correction parameters, and anything else is a ValueError. *)
Theorem C197_sizes u b r w c : new_solver u b r w c = Ok u <-> b = u /\ r = u /\ w = u /\ c = 4%nat.
Proof.
  unfold new_solver. destruct (Nat.eqb_spec u b), (Nat.eqb_spec u r), (Nat.eqb_spec u w), (Nat.eqb_spec c 4); cbn [negb]; split; intros H; try discriminate; try reflexivity; repeat split; try congruence; destruct H as (? & ? & ? & ?); congruence.
Qed.
Print Assumptions C197_sizes.
Theorem C197_refused u b r w c : ~ (b = u /\ r = u /\ w = u /\ c = 4%nat) -> new_solver u b r w c = Err ValueError.
Proof.
  intros H. unfold new_solver. destruct (Nat.eqb_spec u b), (Nat.eqb_spec u r), (Nat.eqb_spec u w), (Nat.eqb_spec c 4); cbn [negb]; try reflexivity. exfalso. apply H. repeat split; congruence.
Qed.
Print Assumptions C197_refused.
Example C197_ex : new_solver 3 3 3 3 4 = Ok 3%nat /\ new_solver 3 3 2 3 4 = Err ValueError /\ new_solver 0 0 0 0 4 = Ok 0%nat. Proof. repeat split. Qed.

(** A geometry with these laws: pixel numbers that nest, four in one. *)
Definition toy : mapgeo := mkMapgeo (fun a b p => p * (b * b) / (a * a)) (fun s h k => [h]) (fun c pt => [pt; pt + 1]).
Lemma toy_laws : healpix_laws toy.
Proof.
  split.
  - intros a b p A B P. cbn [m_in toy]. assert (X : 0 < 2^a * 2^a) by (apply Z.mul_pos_pos; apply Z.pow_pos_nonneg; lia). assert (Y : 0 < 2^b * 2^b) by (apply Z.mul_pos_pos; apply Z.pow_pos_nonneg; lia).
    split; [apply Z.div_pos; nia|]. apply Z.div_lt_upper_bound; nia.
  - intros a b c p A B P. cbn [m_in toy]. set (k := 2^(c-b)). set (j := 2^(b-a)). assert (Xa : 0 < 2^a) by (apply Z.pow_pos_nonneg; lia). assert (Xk : 0 < k) by (apply Z.pow_pos_nonneg; lia). assert (Xj : 0 < j) by (apply Z.pow_pos_nonneg; lia).
    assert (Eb : 2^b = 2^a * j) by (unfold j; rewrite <- Z.pow_add_r by lia; f_equal; lia). assert (Ec : 2^c = 2^b * k) by (unfold k; rewrite <- Z.pow_add_r by lia; f_equal; lia). rewrite Ec, Eb. set (x := 2^a) in *.
    replace (p * (x * j * (x * j))) with (p * ((x * j) * (x * j))) by ring. replace (x * j * k * (x * j * k)) with ((k * k) * ((x * j) * (x * j))) by ring. rewrite Z.div_mul_cancel_r by nia.
    replace (x * j * (x * j)) with ((j * j) * (x * x)) by ring. rewrite Z.div_mul_cancel_r by nia. replace ((k * k) * ((j * j) * (x * x))) with (((k * k) * (j * j)) * (x * x)) by ring. rewrite Z.div_mul_cancel_r by nia. rewrite Z.div_div by nia. reflexivity.
Qed.
Example C196_ex : subpix_indices toy (2^0) 3 false (2^1) [11; 12; 15; 16; 12] = [1; 2; 4]%nat /\ subpix_indices toy (2^0) 3 true (2^1) [3; 4; 5; 12] = [0; 1; 3]%nat.
Proof. vm_compute. split; reflexivity. Qed.
