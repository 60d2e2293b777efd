(** C29, C30: the volume limit mask and effective areas. *)
From Coq Require Import QArith Lqa Sorting.Sorted.
From Verif.Base Require Import Py PyLemmas Sort.
From Verif.Model Require Import Vlim.
From Verif.Spec Require Import Vlim.
From Verif.Proofs Require Import Centering Zlambda Vlim.
Local Open Scope nat_scope.

(** The redshift limit of a kept pixel is one of the bins after the first; the pixel is complete, in every band, in
    all bins BEFORE it, and in a later bin in no case unless it is the last bin.  A pixel is masked exactly when in some
    band its depth does not exceed the magnitude at the first bin.  Missing from the claim: the bin itself. *)
Theorem C29_mask_partial : forall zbins n b bs, StronglySorted Qlt zbins -> List.length zbins = n -> 2 <= n -> good_band n b ->
  (forall b', In b' bs -> good_band n b') ->
  exists o, vlim_pixel zbins (fst b) (bdepth b) bs = Ok o /\
    (o = None <-> exists b', In b' (b :: bs) /\ exists lm, nth_error (fst b') 0 = Some lm /\ (bdepth b' <= lm)%Q) /\
    (forall z, o = Some z -> exists j, 1 <= j /\ nth_error zbins j = Some z /\
       (forall b' k, In b' (b :: bs) -> k < j -> complete_at b' k) /\
       (j = n - 1 \/ exists b', In b' (b :: bs) /\ ~ complete_at b' j)).
Proof.
  intros zbins n b bs Hz Hn H2 Hb Hbs. destruct (vlim_index zbins n b bs Hz Hn H2 Hb Hbs) as (o & j & z & E & Hj & (C1 & C2 & C3) & Ho).
  exists o. split; [exact E|]. subst o. destruct (Nat.eqb_spec j 0) as [H0|H0].
  - split; [split; [intros _; apply C3, H0|reflexivity]|intros z' G; discriminate].
  - split; [split; [discriminate|intros G; apply C3 in G; contradiction]|]. intros z' G. injection G as <-. exists j.
    split; [lia|]. split; [exact Hj|]. split; [exact C1|]. destruct C2 as [C2|[b' [Hin [G|[G _]]]]]; [left; exact C2|right; eauto|contradiction].
Qed.
Print Assumptions C29_mask_partial.
(** Complete nowhere in some band: masked.  No coverage in an extra band of positive magnitudes: masked. *)
Theorem C29_masked : forall zbins n b bs, StronglySorted Qlt zbins -> List.length zbins = n -> 2 <= n -> good_band n b ->
  (forall b', In b' bs -> good_band n b') ->
  (exists b', In b' (b :: bs) /\ forall k, ~ complete_at b' k) -> vlim_pixel zbins (fst b) (bdepth b) bs = Ok None.
Proof.
  intros zbins n b bs Hz Hn H2 Hb Hbs [b' [Hin Hc]]. destruct (C29_mask_partial zbins n b bs Hz Hn H2 Hb Hbs) as (o & E & M & _).
  rewrite E. f_equal. apply M. exists b'. split; [exact Hin|].
  assert (Hg : good_band n b') by (destruct Hin as [<-|Hin]; [exact Hb|apply Hbs, Hin]). destruct Hg as [Hl _].
  destruct (nth_error (fst b') 0) as [lm|] eqn:El; [|apply nth_error_None in El; lia]. exists lm. split; [reflexivity|].
  destruct (Qlt_le_dec (bdepth b') lm) as [G|G]; [lra|]. exfalso. apply (Hc 0). exists lm. auto.
Qed.
Print Assumptions C29_masked.
(** Every kept pixel whose limit is not the last bin is NOT complete at the limit it is given: the limit is one bin too
    high. *)
Theorem C29_one_bin_too_high_refuted : forall zbins n b bs z, StronglySorted Qlt zbins -> List.length zbins = n -> 2 <= n -> good_band n b ->
  (forall b', In b' bs -> good_band n b') ->
  vlim_pixel zbins (fst b) (bdepth b) bs = Ok (Some z) -> nth_error zbins (n - 1) <> Some z ->
  exists j, nth_error zbins j = Some z /\ exists b', In b' (b :: bs) /\ ~ complete_at b' j.
Proof.
  intros zbins n b bs z Hz Hn H2 Hb Hbs E Hl. destruct (C29_mask_partial zbins n b bs Hz Hn H2 Hb Hbs) as (o & E' & _ & M).
  assert (o = Some z) by congruence. destruct (M z H) as (j & _ & Hj & _ & [->|G]); [contradiction|]. exists j. auto.
Qed.
Print Assumptions C29_one_bin_too_high_refuted.
(** A pixel exactly as deep as the first bin needs is complete there and is masked. *)
Theorem C29_exact_depth_refuted : forall zbins n b, StronglySorted Qlt zbins -> List.length zbins = n -> 2 <= n -> good_band n b ->
  nth_error (fst b) 0 = Some (bdepth b) -> complete_at b 0 /\ vlim_pixel zbins (fst b) (bdepth b) [] = Ok None.
Proof.
  intros zbins n b Hz Hn H2 Hb H0. split; [exists (bdepth b); split; [exact H0|lra]|].
  destruct (C29_mask_partial zbins n b [] Hz Hn H2 Hb ltac:(intros b' [])) as (o & E & M & _). refine (eq_trans E _). f_equal. apply M.
  exists b. split; [left; reflexivity|]. exists (bdepth b). split; [exact H0|lra].
Qed.
Print Assumptions C29_exact_depth_refuted.

Definition ex_zbins : list Q := [1#10; 2#10; 3#10; 4#10]%Q.
Definition ex_band : band := ([18; 19; 20; 21], Some (1951#100))%Q.
Definition ex_band2 : band := ([17; 19; 39#2; 20], Some (191#10))%Q.
Example C29_example : good_band 4 ex_band /\ good_band 4 ex_band2 /\ StronglySorted Qlt ex_zbins /\
  vlim_pixel ex_zbins (fst ex_band) (bdepth ex_band) [ex_band2] = Ok (Some (3#10)%Q) /\
  vlim_pixel ex_zbins (fst ex_band) (bdepth ex_band) [(fst ex_band2, None)] = Ok None /\
  vlim_pixel ex_zbins (fst ex_band) 25 [] = Ok (Some (4#10)%Q).
Proof. repeat split; repeat constructor; vm_compute; reflexivity. Qed.

(** The areas of a volume limit mask with positive good fractions: always answered, between 0 and the total,
    non-increasing in redshift, and the total below every pixel's limit.  Missing: the amount in between and beyond. *)
Theorem C30_vlim_partial : forall asort ps pix, argsort_spec asort -> good_pixels pix -> (0 <= ps)%Q ->
  forall z, exists a, vlim_area asort ps pix z = Ok a /\ (0 <= a)%Q /\ (a <= total_area ps pix)%Q /\
    ((forall p, In p pix -> (z < fst p)%Q) -> (a == total_area ps pix)%Q) /\
    (forall z' a', (z <= z')%Q -> vlim_area asort ps pix z' = Ok a' -> (a' <= a)%Q).
Proof. intros asort ps pix HA HG Hp z. destruct (vlim_area_bounds asort ps pix HA HG Hp z) as (a & A1 & A2 & A3 & A4 & A5 & _). eauto 10. Qed.
Print Assumptions C30_vlim_partial.
(** At and beyond the deepest pixel the answer is the area of a shallowest pixel, never 0. *)
Theorem C30_beyond_refuted : forall asort ps pix z, argsort_spec asort -> good_pixels pix -> (0 < ps)%Q -> pix <> [] ->
  (forall p, In p pix -> (fst p <= z)%Q) ->
  exists a p, vlim_area asort ps pix z = Ok a /\ In p pix /\ (forall q, In q pix -> (fst p <= fst q)%Q) /\ (a == ps * snd p)%Q /\ (0 < a)%Q.
Proof.
  intros asort ps pix z HA HG Hp Hne Hall. destruct (vlim_area_bounds asort ps pix HA HG ltac:(lra) z) as (a & A1 & _ & _ & _ & _ & A6).
  destruct (A6 Hne Hall) as [p [H1 [H2 H3]]]. exists a, p. split; [exact A1|]. split; [exact H1|]. split; [exact H3|]. split; [exact H2|].
  rewrite H2. specialize (HG p H1). nra.
Qed.
Print Assumptions C30_beyond_refuted.
(** In between: a deep small pixel and a shallow large one; past the shallow one the whole area is still reported. *)
Theorem C30_amount_refuted : exists pix z a, good_pixels pix /\ vlim_area argsort 1 pix z = Ok a /\
  ~ (a == area_of 1 (fun zm => Qle_bool z zm) pix)%Q /\ ~ (a == area_of 1 (fun zm => Qlt_bool z zm) pix)%Q.
Proof.
  exists [(2#10, 1); (5#10, 1#10)]%Q, (3#10)%Q. eexists. split; [|split; [vm_compute; reflexivity|split; vm_compute; discriminate]].
  intros p [<-|[<-|[]]]; reflexivity.
Qed.
Print Assumptions C30_amount_refuted.
(** Depth map with at least two pixels: between 0 and the total, non-increasing. *)
Theorem C30_depth_partial : forall asort ps pix, argsort_spec asort -> good_pixels pix -> (forall p, In p pix -> (0 < fst p)%Q) ->
  (0 <= ps)%Q -> 2 <= List.length pix ->
  forall m, exists a, depth_area asort ps pix m = Ok a /\ (0 <= a)%Q /\ (a <= total_area ps pix)%Q /\
     (forall m' a', (m <= m')%Q -> depth_area asort ps pix m' = Ok a' -> (a' <= a)%Q).
Proof.
  intros asort ps pix HA HG Hpos Hp H2 m. destruct (depth_area_cases asort ps pix HA HG Hpos Hp) as [_ H].
  destruct (H H2 m) as (a & A1 & A2 & A3 & A4 & _). eauto 10.
Qed.
Print Assumptions C30_depth_partial.
(** One pixel: every query raises. *)
Theorem C30_depth_one_refuted : forall asort ps pix, argsort_spec asort -> good_pixels pix -> (forall p, In p pix -> (0 < fst p)%Q) ->
  (0 <= ps)%Q -> List.length pix = 1 -> forall m, depth_area asort ps pix m = Err IndexError.
Proof. intros asort ps pix HA HG Hpos Hp H1. apply (depth_area_cases asort ps pix HA HG Hpos Hp), H1. Qed.
Print Assumptions C30_depth_one_refuted.
(** Fainter than every depth: the area of two pixels, never 0. *)
Theorem C30_depth_beyond_refuted : forall asort ps pix, argsort_spec asort -> good_pixels pix -> (forall p, In p pix -> (0 < fst p)%Q) ->
  (0 < ps)%Q -> 2 <= List.length pix -> forall m, (forall p, In p pix -> (fst p < m)%Q) ->
  exists a, depth_area asort ps pix m = Ok a /\ (0 < a)%Q.
Proof.
  intros asort ps pix HA HG Hpos Hp H2 m Hm. destruct (depth_area_cases asort ps pix HA HG Hpos ltac:(lra)) as [_ H].
  destruct (H H2 m) as (a & A1 & _ & _ & _ & A5). exists a. split; [exact A1|]. destruct (A5 Hm) as (p & q & I1 & I2 & ->).
  pose proof (HG p I1). pose proof (HG q I2). nra.
Qed.
Print Assumptions C30_depth_beyond_refuted.
Definition ex_pix : list (Q * Q) := [(4#10, 1#2); (2#10, 1); (5#10, 1#10)]%Q.
Example C30_example : good_pixels ex_pix /\ argsort_spec argsort /\ vlim_area argsort 2 ex_pix (1#10) = Ok (64#20)%Q /\
  (exists a, vlim_area argsort 2 ex_pix 1 = Ok a /\ (a == 2)%Q) /\ exists a, depth_area argsort 2 ex_pix 1 = Ok a /\ (a == 3)%Q.
Proof.
  split; [intros p [<-|[<-|[<-|[]]]]; reflexivity|]. split; [exact argsort_ok|]. split; [vm_compute; reflexivity|].
  split; eexists; (split; [vm_compute; reflexivity|reflexivity]).
Qed.
