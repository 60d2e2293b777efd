(** C154, C155, C156: the redshift of a cluster and its copy; how the richness depends on the redshift; the richness at other centres. *)
From Coq Require Import Reals Lra String.
From Verif.Base Require Import Py PyLemmas.
From Verif.Model Require Import CentRich.
From Verif.Spec Require Import CentRich.
From Verif.Proofs Require Import CentRich.
From Coq Require Import Lia List. Import ListNotations.
Local Open Scope R_scope.

(** Setting a redshift of at least 0.01 sets the magnitude scale, the angular scale and the radii of the neighbours to those of that
    redshift, and nothing else; a smaller one counts as 0.01, a negative one is refused. *)
Theorem C154_redshift mstar scale v c : (v < 0 -> set_redshift mstar scale v c = Err ValueError) /\
  (0 <= v -> exists c', set_redshift mstar scale v c = Ok c' /\ in_step mstar scale c' /\ c_z c' = Some (Rmax v (1 / 100)) /\
    c_row c' = c_row c /\ c_r0 c' = c_r0 c /\ c_beta c' = c_beta c /\ c_zbk c' = c_zbk c /\ 
    option_map (map (fun n => (n_dist n, n_rest n))) (c_nbs c') = option_map (map (fun n => (n_dist n, n_rest n))) (c_nbs c)).
Proof.
  unfold set_redshift. split; intros H; destruct (Rlt_dec v 0); try contradiction; try reflexivity; [lra|].
  eexists. split; [reflexivity|]. split. { exists (Rmax v (1 / 100)). split; [apply Rmax_r|]. cbn. repeat split; auto. intros l m E I. destruct (c_nbs c) as [l0|]; [|discriminate]. cbn in E. assert (El : l = map (with_r (scale (Rmax v (1 / 100)))) l0) by congruence. subst l. apply (with_r_in _ l0), I. }
  cbn. repeat split; auto. destruct (c_nbs c) as [l0|]; [|reflexivity]. cbn. f_equal. rewrite map_map. reflexivity.
Qed.
Print Assumptions C154_redshift.
(** New neighbours, or new distances, get the radii of the redshift. *)
Theorem C154_neighbours mstar scale c l : in_step mstar scale c -> in_step mstar scale (set_nbs l c) /\ c_z (set_nbs l c) = c_z c /\
  option_map (map n_dist) (c_nbs (set_nbs l c)) = Some (map n_dist l).
Proof.
  intros (z & A & B & C & D & E). split; [|split].
  - exists z. unfold set_nbs. cbn. repeat split; auto. intros l' m E' I. rewrite D in E'. assert (El : l' = map (with_r (scale z)) l) by congruence. subst l'. apply (with_r_in _ l), I.
  - reflexivity.
  - unfold set_nbs. cbn. rewrite D. rewrite map_map. reflexivity.
Qed.
Print Assumptions C154_neighbours.
(** The copy of a cluster in step has its redshift, scales, radius parameters and neighbours.  (Missing: the row of the catalogue and the
    background of redshifts, next theorems.) *)
Theorem C154_copy_partial mstar scale c : in_step mstar scale c -> exists c', copy mstar scale c = Ok c' /\ in_step mstar scale c' /\
  c_z c' = c_z c /\ c_mstar c' = c_mstar c /\ c_scale c' = c_scale c /\ c_r0 c' = c_r0 c /\ c_beta c' = c_beta c /\ c_nbs c' = c_nbs c.
Proof.
  intros (z & A & B & C & D & E). unfold copy. rewrite B. unfold set_redshift. destruct (Rlt_dec z 0); [lra|]. rewrite (Rmax_same z A).
  assert (N : option_map (map (with_r (scale z))) (c_nbs c) = c_nbs c). { destruct (c_nbs c) as [l|]; [|reflexivity]. cbn. rewrite with_r_same; [reflexivity|]. intros m I. apply (E l m eq_refl I). }
  eexists. split; [reflexivity|]. cbn [c_nbs c_r0 c_beta c_zbk c_row]. rewrite N. cbn. split; [exists z; cbn; repeat split; auto|]. rewrite C, D. auto 10.
Qed.
Print Assumptions C154_copy_partial.
(** Finding: every field of the catalogue is 0 in the copy, the position and the richness among them. *)
Theorem C154_row_refuted mstar scale c c' : copy mstar scale c = Ok c' -> forall f, c_row c' f = 0.
Proof. unfold copy, set_redshift. destruct (c_z c) as [v|]; [|discriminate]. destruct (Rlt_dec v 0); [discriminate|]. intros E f. assert (X : forall a b : cl, Ok a = Ok b -> a = b) by congruence. apply X in E. subst c'. reflexivity. Qed.
Print Assumptions C154_row_refuted.
(** Finding: the background of redshifts can be evaluated on a cluster but not on its copy. *)
Theorem C154_background_refuted mstar scale c c' sigma r : in_step mstar scale c -> c_zbk c = true -> copy mstar scale c = Ok c' ->
  (exists b, zred_bkg sigma r c = Ok b) /\ zred_bkg sigma r c' = Err AttributeError.
Proof.
  intros (z & A & B & C & D & E) K H. split; [unfold zred_bkg; rewrite K, D; eauto|].
  unfold copy, set_redshift in H. rewrite B in H. destruct (Rlt_dec z 0); [discriminate|]. assert (X : forall a b : cl, Ok a = Ok b -> a = b) by congruence. apply X in H. subst c'. reflexivity.
Qed.
Print Assumptions C154_background_refuted.
(** Finding: a cluster without a redshift cannot be copied. *)
Theorem C154_unset_refuted mstar scale c : c_z c = None -> copy mstar scale c = Err TypeError.
Proof. unfold copy. intros ->. reflexivity. Qed.
Print Assumptions C154_unset_refuted.
Example C154_example : let c := mkCl (fun f => if String.eqb f "ra" then 140 else 0) 1 (2 / 10) (Some (1 / 2)) (Some 20) (Some 4) (Some [mkNb 1 4 7]) true in
  in_step (fun _ => 20) (fun _ => 4) c /\ c_row c "ra"%string = 140 /\ (exists c', copy (fun _ => 20) (fun _ => 4) c = Ok c' /\ c_row c' "ra"%string = 0).
Proof.
  cbv zeta. split; [|split].
  - exists (1 / 2). split; [lra|]. split; [reflexivity|]. split; [reflexivity|]. split; [reflexivity|]. intros l m E I. cbn in E. assert (El : l = [mkNb 1 4 7]) by congruence. subst l. destruct I as [<-|[]]. cbn. rewrite Rmax_left; lra.
  - reflexivity.
  - unfold copy, set_redshift. cbn. destruct (Rlt_dec (1 / 2) 0); [lra|]. eexists. split; reflexivity.
Qed.

(** With the redshift not corrected and at least 0.01 beyond the step: for a richness that is the exponential of a parabola, and a
    variance that is a parabola, the derivatives are exact.  (Missing: corrected redshifts and low ones, next theorems.) *)
Theorem C155_exact_partial lam err z eps a b c p q r : 0 < eps -> 1 / 100 <= z - eps -> (forall x, lam x = exp (a + b * x + c * x ^ 2)) ->
  (forall x, err x ^ 2 = p + q * x + r * x ^ 2) ->
  measured lam err (fun x => x) eps z = Ok (Some (mkD (b + 2 * c * z) (2 * c) (q + 2 * r * z) (2 * r))).
Proof.
  intros P Z L E. unfold measured, plusminus. rewrite !at_ok by lra. cbn [bind]. rewrite !L, !E, !ln_exp. destruct (Rlt_dec 0 _) as [_|N]; [|exfalso; apply N, exp_pos]. destruct (Rlt_dec 0 _) as [_|N]; [|exfalso; apply N, exp_pos].
  do 3 f_equal; field; lra.
Qed.
Print Assumptions C155_exact_partial.
(** If the richness fails on either side nothing is stored. *)
Theorem C155_invalid lam err zl eps l e : 0 < eps -> 1 / 100 <= zl - eps -> lam (zl - eps) <= 0 \/ lam (zl + eps) <= 0 -> plusminus lam err zl eps l e = Ok None.
Proof.
  intros P Z H. unfold plusminus. rewrite !at_ok by lra. cbn [bind]. destruct (Rlt_dec 0 (lam (zl - eps))); [|reflexivity]. destruct (Rlt_dec 0 (lam (zl + eps))); [lra|reflexivity].
Qed.
Print Assumptions C155_invalid.
(** Finding: the richness in the middle is that of the redshift before the correction, the two others are around the corrected redshift:
    for a richness growing like exp(b z), without any curvature, a correction by d is stored as the second derivative 2 b d / eps^2. *)
Theorem C155_correction_refuted lam err corr z eps a b d : 0 < eps -> 1 / 100 <= corr z - eps -> corr z = z + d -> (forall x, lam x = exp (a + b * x)) ->
  exists v1 v2, measured lam err corr eps z = Ok (Some (mkD b (2 * b * d / eps ^ 2) v1 v2)).
Proof.
  intros P Z C L. unfold measured, plusminus. rewrite !at_ok by lra. cbn [bind]. rewrite !L, !ln_exp. destruct (Rlt_dec 0 _) as [_|N]; [|exfalso; apply N, exp_pos]. destruct (Rlt_dec 0 _) as [_|N]; [|exfalso; apply N, exp_pos].
  rewrite C. eexists; eexists. do 3 f_equal; field; lra.
Qed.
Print Assumptions C155_correction_refuted.
(** Finding: a corrected redshift below the step stops the run. *)
Theorem C155_low_refuted lam err corr z eps : corr z < eps -> measured lam err corr eps z = Err ValueError.
Proof. intros H. unfold measured, plusminus. rewrite at_neg by lra. reflexivity. Qed.
Print Assumptions C155_low_refuted.
(** Finding: below the step plus 0.01 the lower redshift is taken as 0.01, but the difference is still divided by twice the step. *)
Theorem C155_clipped_refuted lam err z eps a b : 0 < eps -> eps <= z < eps + 1 / 100 -> 1 / 100 <= z + eps -> b <> 0 -> (forall x, lam x = exp (a + b * x)) ->
  exists d, measured lam err (fun x => x) eps z = Ok (Some d) /\ d_1 d <> b.
Proof.
  intros P Z Z2 B L. unfold measured, plusminus. rewrite (at_ok (z + eps)) by lra. unfold at_redshift. destruct (Rlt_dec (z - eps) 0); [lra|]. rewrite Rmax_right by lra. cbn [bind].
  rewrite !L. destruct (Rlt_dec 0 _) as [_|N]; [|exfalso; apply N, exp_pos]. destruct (Rlt_dec 0 _) as [_|N]; [|exfalso; apply N, exp_pos]. eexists. split; [reflexivity|]. cbn [d_1]. rewrite !ln_exp.
  intros X. assert (Y : b * (z + eps - 1 / 100) = b * (2 * eps)) by (apply (Rmult_eq_compat_r (2 * eps)) in X; replace ((a + b * (z + eps) - (a + b * (1 / 100))) / (2 * eps) * (2 * eps)) with (b * (z + eps - 1 / 100)) in X by (field; lra); lra).
  apply Rmult_eq_reg_l in Y; [lra|exact B].
Qed.
Print Assumptions C155_clipped_refuted.
Example C155_example : measured (fun x => exp (1 + 2 * x + 3 * x ^ 2)) (fun x => 1) (fun x => x) (5 / 1000) (1 / 2) = Ok (Some (mkD (2 + 2 * 3 * (1 / 2)) (2 * 3) (0 + 2 * 0 * (1 / 2)) (2 * 0))).
Proof. apply (C155_exact_partial _ _ (1 / 2) (5 / 1000) 1 2 3 1 0 0); try lra; intros; cbv beta; ring. Qed.

(** The richness of a cluster averaged over its centres lies between those of the centres, and the scatter is the root of the mean
    square deviation; for one centre it is its richness, without scatter. *)
Theorem C156_average {Pos Marks} (marks_at : Pos -> Marks) rich maxcent cents pcen : (List.length cents <= maxcent)%nat -> List.length pcen = maxcent ->
  (forall q, In q pcen -> 0 <= q) -> fold_right Rplus 0 pcen = 1 ->
  let ls := lambda_cent marks_at rich maxcent cents in let c := average marks_at rich maxcent cents pcen in
  ((1 < List.length cents)%nat -> fst c = expect pcen ls /\ snd c = sqrt (expect pcen (map (fun v => (v - fst c) ^ 2) ls)) /\
     forall lo hi, (forall v, In v ls -> lo <= v <= hi) -> lo <= fst c <= hi) /\
  (forall p, cents = [p] -> c = (rich p (marks_at p), 0)).
Proof.
  intros N L P S ls c. assert (LL : List.length ls = maxcent) by (apply cent_len, N). split.
  - intros M. unfold c, average. fold ls. destruct (Nat.ltb 1 (List.length cents)) eqn:B; [|apply Nat.ltb_ge in B; lia]. cbn [fst snd].
    change (sumR (map (fun q => fst q * snd q) (combine pcen ls))) with (expect pcen ls). set (m := expect pcen ls). split; [reflexivity|]. split.
    + rewrite square_map. change (sumR (map (fun q => fst q * snd q) (combine pcen (map (fun v => v ^ 2) ls)))) with (expect pcen (map (fun v => v ^ 2) ls)).
      assert (E : expect pcen (map (fun v => (v - m) ^ 2) ls) = expect pcen (map (fun v => v ^ 2) ls) - m ^ 2) by (rewrite expect_sq, S by congruence; fold m; ring).
      rewrite <- E. rewrite Rmax_left; [reflexivity|]. apply expect_nonneg; [exact P|]. intros v I. apply in_map_iff in I. destruct I as (w & <- & _). apply pow2_ge_0.
    + intros lo hi H. pose proof (expect_bounds pcen ls lo hi (eq_trans L (eq_sym LL)) P H) as X. rewrite S in X. fold m in X. lra.
  - intros p ->. reflexivity.
Qed.
Print Assumptions C156_average.
(** The richness at each centre is that of a cluster there if the mask is the same around it as around the first, in particular without
    a mask; likewise at the optical centre of a scan.  (Missing: other masks.) *)
Theorem C156_centres_partial {Pos Marks} (marks_at : Pos -> Marks) rich maxcent cents i p p0 : nth_error cents 0 = Some p0 -> nth_error cents i = Some p ->
  marks_at p = marks_at p0 -> nth_error (lambda_cent marks_at rich maxcent cents) i = Some (rich p (marks_at p)) /\ lambda_opt marks_at rich p0 p = rich p (marks_at p).
Proof.
  intros E0 E M. unfold lambda_opt. rewrite M. split; [|reflexivity]. destruct cents as [|q alts]; [discriminate|]. assert (q = p0) by (cbn in E0; congruence). subst q. cbn [lambda_cent].
  rewrite nth_error_app1 by (cbn [List.length]; rewrite map_length; apply (nth_error_Some (p0 :: alts)); congruence). destruct i as [|i].
  - cbn in *. assert (p = p0) by congruence. subst p. reflexivity.
  - cbn in *. rewrite nth_error_map, E. reflexivity.
Qed.
Print Assumptions C156_centres_partial.
(** Finding: the mask is not set for the other centres; at one whose surroundings are masked the richness is not corrected for it.  Here the
    mask cuts off positions below 0 and the corrected richness is 10 times the number of points over the number of unmasked ones. *)
Theorem C156_mask_refuted : exists (marks_at : Z -> list bool) (rich : Z -> list bool -> R), 
  rich 0%Z (marks_at 0%Z) = 20 /\ nth_error (lambda_cent marks_at rich 2 [5%Z; 0%Z]) 1 = Some 10 /\ lambda_opt marks_at rich 5%Z 0%Z = 10.
Proof.
  exists (fun p => map (fun o => Z.leb 0 (p + o)) [-2; -1; 1; 2]%Z), (fun _ l => 10 * INR (List.length l) / INR (List.length (filter (fun b => b) l))).
  unfold lambda_opt, lambda_cent. cbn. repeat split; try (f_equal); field.
Qed.
Print Assumptions C156_mask_refuted.
(** Finding: a centre where the richness cannot be computed counts with richness -1. *)
Theorem C156_failed_refuted {Pos Marks} (marks_at : Pos -> Marks) rich p0 p q : rich p (marks_at p0) = -1 -> 0 < q < 1 -> 0 < rich p0 (marks_at p0) ->
  fst (average marks_at rich 2 [p0; p] [1 - q; q]) = (1 - q) * rich p0 (marks_at p0) - q /\ fst (average marks_at rich 2 [p0; p] [1 - q; q]) < (1 - q) * rich p0 (marks_at p0).
Proof. intros E Q L. unfold average, lambda_cent. cbn. rewrite E. split; lra. Qed.
Print Assumptions C156_failed_refuted.
Example C156_example : fst (average (fun _ : nat => tt) (fun p _ => INR p) 3 [30%nat; 20%nat] [3 / 4; 1 / 4; 0]) = 27.5 /\ fold_right Rplus 0 [3 / 4; 1 / 4; 0] = 1.
Proof. unfold average, lambda_cent. cbn [List.length Nat.ltb Nat.leb fst]. cbn -[INR]. replace (INR 30) with 30 by (rewrite INR_IZR_INZ; reflexivity). replace (INR 20) with 20 by (rewrite INR_IZR_INZ; reflexivity). split; lra. Qed.
(** The background of redshifts at a radius: the circumference times the surface density, taken from per square degree to per square Mpc
    with the scale of the cluster. *)
Theorem C154_background mstar scale c sigma r : in_step mstar scale c -> c_zbk c = true ->
  exists z s b, c_z c = Some z /\ s = scale z /\ zred_bkg sigma r c = Ok b /\ (s <> 0 -> b * (s * s) = (2 * PI * r) * sigma).
Proof.
  intros (z & A & B & C & D & E) K. exists z, (scale z), (2 * PI * r * (sigma / scale z ^ 2)). unfold zred_bkg. rewrite K, D. repeat split; [exact B|]. intros N. field. exact N.
Qed.
Print Assumptions C154_background.
