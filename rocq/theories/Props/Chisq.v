(** C47: the chi-squared of a galaxy.  C71: the C code stays inside its arrays. *)
From Coq Require Import Reals Lra Lia.
From Verif.Base Require Import Py.
From Verif.Model Require Import BkgGen Chisq.
From Verif.Spec Require Import Chisq.
From Verif.Proofs Require Import Chisq.
Local Open Scope R_scope.

(** the total covariance: symmetric, and its form is the calibrated form plus a square per band plus
    the square of the magnitude term *)
Theorem C47_covariance np ncol w :
  (symmetric ncol (r_cov w) -> symmetric ncol (row_cov np ncol w)) /\
  (psd ncol (r_cov w) -> psd ncol (row_cov np ncol w)) /\
  forall x, qform ncol (row_cov np ncol w) x = qform ncol (r_cov w) x
    + (if np then 0 else sumn (ncol + 1) (fun k => (r_magerr w k * band_diff ncol x k) * (r_magerr w k * band_diff ncol x k)))
    + (r_refmagerr w * sumn ncol (fun j => r_slope_ci w j * x j)) * (r_refmagerr w * sumn ncol (fun j => r_slope_ci w j * x j)).
Proof.
  split; [apply row_cov_sym|]. split.
  - intros H x. pose proof (H x). pose proof (row_cov_ge np ncol w x). lra.
  - apply row_cov_form.
Qed.
Print Assumptions C47_covariance.
(** the residual: colour of the red sequence at the galaxy's magnitude minus the galaxy's colour *)
Theorem C47_residual w j :
  row_vdc w j = (r_c w j + r_slope w j * (r_refmag w - r_piv w)) + r_lup w j - r_color w j.
Proof. reflexivity. Qed.
Print Assumptions C47_residual.

(** what the returned number is: d . y where y solves (total covariance, floored) y = d; the floored
    matrix is symmetric, at least the floor, and the total covariance itself when that is above it *)
Theorem C47_value L np sigint ncol w : gsl_ok ncol L -> symmetric ncol (r_cov w) ->
  passes_sigint sigint ncol w ->
  exists m y, symmetric ncol m /\ above ncol m min_eigenval /\
    (above ncol (row_cov np ncol w) min_eigenval -> m = row_cov np ncol w) /\
    (forall i, (i < ncol)%nat -> mvec ncol m y i = row_vdc w i) /\
    row_dist L true np sigint ncol w = sumn ncol (fun i => y i * row_vdc w i).
Proof.
  intros OK Hs Hp. pose proof (row_cov_sym np ncol w Hs) as Hs'.
  pose proof (fix_above ncol L OK _ Hs') as Ha.
  exists (fix_covmat L ncol (row_cov np ncol w)),
         (mvec ncol (lu_inv L ncol (tab ncol (fix_covmat L ncol (row_cov np ncol w)))) (row_vdc w)).
  repeat split.
  - apply fix_sym; assumption.
  - exact Ha.
  - intros H. apply (fix_same ncol L OK); assumption.
  - intros i Hi. apply (inv_solves ncol L OK); [|exact Hi]. apply (above_nonsing _ _ _ min_eig_pos Ha).
  - apply row_dist_chi, Hp.
Qed.
Print Assumptions C47_value.

(** never negative, whatever the calibrated covariance; zero exactly on the red sequence *)
Theorem C47_nonneg L np sigint ncol w : gsl_ok ncol L -> symmetric ncol (r_cov w) ->
  0 <= row_dist L true np sigint ncol w /\
  (row_dist L true np sigint ncol w = 0 <-> passes_sigint sigint ncol w /\ forall i, (i < ncol)%nat -> row_vdc w i = 0).
Proof.
  intros OK Hs. split; [apply row_dist_nonneg; assumption|].
  pose proof (fix_above ncol L OK _ (row_cov_sym np ncol w Hs)) as Ha.
  pose proof (chi_zero ncol L OK _ (row_vdc w) _ min_eig_pos Ha) as Hz.
  split.
  - intros E. destruct (existsb (fun j => Rltb (r_cov w j j) (sigint * sigint)) (seq 0 ncol)) eqn:Eb.
    + unfold row_dist in E. rewrite Eb in E. lra.
    + apply sigint_cases in Eb. rewrite (row_dist_chi L np sigint ncol w Eb) in E. split; [exact Eb|apply Hz, E].
  - intros [Hp Hd]. rewrite (row_dist_chi L np sigint ncol w Hp). apply Hz, Hd.
Qed.
Print Assumptions C47_nonneg.

(** a row whose intrinsic scatter is below the floor gets the marker value *)
Theorem C47_marker L dc np sigint ncol w : ~ passes_sigint sigint ncol w ->
  row_dist L dc np sigint ncol w = if dc then 100000000000 else -100000000000.
Proof. apply row_dist_bad. Qed.
Print Assumptions C47_marker.

(** the log-likelihood is -(chi-squared + log det)/2, and its determinant is positive *)
Theorem C47_likelihood L np sigint ncol w : gsl_ok ncol L -> symmetric ncol (r_cov w) ->
  passes_sigint sigint ncol w ->
  exists det, 0 < det /\
    row_dist L false np sigint ncol w = - (row_dist L true np sigint ncol w + ln det) / 2.
Proof.
  intros OK Hs Hp. exists (lu_det L ncol (tab ncol (fix_covmat L ncol (row_cov np ncol w)))). split.
  - apply (det_pos ncol L OK).
    + apply fix_sym; [exact OK|apply row_cov_sym, Hs].
    + intros x Hx. pose proof (fix_above ncol L OK _ (row_cov_sym np ncol w Hs) x). pose proof min_eig_pos. nra.
  - unfold row_dist. rewrite (proj2 (sigint_cases sigint ncol w) Hp). field.
Qed.
Print Assumptions C47_likelihood.

(** larger magnitude errors never raise the chi-squared of the same colors *)
Theorem C47_errors_lower L sigint ncol w w' : gsl_ok ncol L ->
  symmetric ncol (r_cov w) -> above ncol (r_cov w) min_eigenval -> passes_sigint sigint ncol w ->
  r_cov w' = r_cov w -> r_slope_ci w' = r_slope_ci w -> (forall j, row_vdc w' j = row_vdc w j) ->
  (forall k, (k < ncol + 1)%nat -> Rabs (r_magerr w k) <= Rabs (r_magerr w' k)) ->
  Rabs (r_refmagerr w) <= Rabs (r_refmagerr w') ->
  row_dist L true false sigint ncol w' <= row_dist L true false sigint ncol w.
Proof.
  intros OK Hs Ha Hp Hc Hsl Hd Hm He.
  assert (Hp' : passes_sigint sigint ncol w') by (intros j Hj; rewrite Hc; apply Hp, Hj).
  assert (Hs' : symmetric ncol (r_cov w')) by (rewrite Hc; exact Hs).
  rewrite (row_dist_chi L false sigint ncol w Hp), (row_dist_chi L false sigint ncol w' Hp').
  assert (A : above ncol (row_cov false ncol w) min_eigenval)
    by (intros x; pose proof (Ha x); pose proof (row_cov_ge false ncol w x); lra).
  assert (A' : above ncol (row_cov false ncol w') min_eigenval)
    by (intros x; pose proof (Ha x); pose proof (row_cov_ge false ncol w' x) as Hx; rewrite Hc in Hx; lra).
  rewrite (fix_same ncol L OK _ (row_cov_sym false ncol w Hs) A).
  rewrite (fix_same ncol L OK _ (row_cov_sym false ncol w' Hs') A').
  assert (E : chi ncol L (row_cov false ncol w') (row_vdc w') = chi ncol L (row_cov false ncol w') (row_vdc w)).
  { unfold chi. apply sumn_ext. intros i _. rewrite (Hd i). f_equal. apply mvec_ext. intros; apply Hd. }
  rewrite E. apply (chi_antitone ncol L OK _ _ _ _ min_eig_pos A A' (row_cov_sym false ncol w Hs)).
  intros x. rewrite !row_cov_form, Hc, Hsl.
  assert (Hq : forall a b c : R, Rabs a <= Rabs b -> (a * c) * (a * c) <= (b * c) * (b * c)).
  { intros a b c H. apply Rsqr_le_abs_1 in H. unfold Rsqr in H. pose proof (Rle_0_sqr c). unfold Rsqr in *. nra. }
  pose proof (Hq _ _ (sumn ncol (fun j => r_slope_ci w j * x j)) He).
  assert (sumn (ncol + 1) (fun k => r_magerr w k * band_diff ncol x k * (r_magerr w k * band_diff ncol x k))
       <= sumn (ncol + 1) (fun k => r_magerr w' k * band_diff ncol x k * (r_magerr w' k * band_diff ncol x k)))
    by (apply sumn_le; intros k Hk; apply Hq, Hm, Hk).
  lra.
Qed.
Print Assumptions C47_errors_lower.

(** many galaxies at one redshift, and one galaxy at many redshifts, give the value of each pair alone *)
Theorem C47_one_redshift L t lk ncol n gs zi i : (i < n)%nat ->
  nth_error (calculate_one_z L t lk ncol n gs zi) i = Some (pair_value L t lk ncol (gs i) zi).
Proof.
  intros Hi. unfold calculate_one_z. rewrite (dist_nth _ _ _ _ _ _ _ _ _ Hi). f_equal.
  apply row_dist_eq, one_z_rows.
Qed.
Print Assumptions C47_one_redshift.
Theorem C47_one_galaxy L t lk ncol n g zs i : (i < n)%nat ->
  nth_error (calculate_one_gal L t lk ncol n g zs) i = Some (pair_value L t lk ncol g (zs i)).
Proof.
  intros Hi. unfold calculate_one_gal. rewrite (dist_nth _ _ _ _ _ _ _ _ _ Hi). f_equal.
  apply row_dist_eq, one_gal_rows.
Qed.
Print Assumptions C47_one_galaxy.
(** each galaxy at its own redshift: only where the slopes are those of the FIRST pair, or the
    magnitude error is zero *)
Theorem C47_pairs_partial L t lk ncol n gs zs i : (i < n)%nat ->
  (forall j, (j < ncol)%nat -> z_slope (t_row t (zs i)) j = z_slope (t_row t (zs 0%nat)) j) \/ g_magerr (gs i) = 0 ->
  nth_error (calculate_pairs L t lk ncol n gs zs) i = Some (pair_value L t lk ncol (gs i) (zs i)).
Proof.
  intros Hi H. unfold calculate_pairs. rewrite (dist_nth _ _ _ _ _ _ _ _ _ Hi). f_equal.
  rewrite (row_dist_eq _ _ _ _ _ _ _ (pairs_rows t ncol gs zs i)). destruct H as [H|H].
  - apply row_dist_eq. unfold row_eq, pair_row2, pair_row. cbn. repeat split. symmetry. apply H. assumption.
  - unfold row_dist, pair_value, row_dist.
    assert (Hm : forall j k, (j < ncol)%nat -> (k < ncol)%nat ->
      row_cov false ncol (pair_row2 t gs zs i) j k = row_cov false ncol (pair_row t (gs i) (zs i)) j k).
    { intros j k _ _. unfold row_cov. rewrite !cimat_entry. unfold pair_row2, pair_row. cbn. rewrite H. unfold scaled_err. ring. }
    cbn [r_cov pair_row2 pair_row].
    assert (Ht : tab ncol (fix_covmat L ncol (row_cov false ncol (pair_row2 t gs zs i)))
               = tab ncol (fix_covmat L ncol (row_cov false ncol (pair_row t (gs i) (zs i)))))
      by (apply tab_ext; intros a b Ha Hb; apply fix_ext; assumption).
    cbv zeta. rewrite Ht. reflexivity.
Qed.
Print Assumptions C47_pairs_partial.
(** the magnitude-error term of every pair uses the slopes of the first one *)
Definition tab_bad : rstab :=
  {| t_row := fun zi => {| z_cov := fun _ _ => 1; z_c := fun _ => 1; z_slope := fun _ => INR zi; z_piv := 0 |};
     t_lup := fun _ _ _ => 0; t_magind := fun _ => 0%nat; t_err_int := fun _ => 1; t_err_slope := fun _ => 0; t_err_piv := 0 |}.
Definition gal_bad : gal := {| g_mag := 0; g_magerr := 1; g_errs := fun _ => 0; g_color := fun _ => 0 |}.
Lemma chi1 L m d : gsl_ok 1 L -> m 0%nat 0%nat <> 0 -> chi 1 L m d = d 0%nat * d 0%nat / m 0%nat 0%nat.
Proof.
  intros OK Hm. unfold chi, mvec. cbn.
  assert (Hn : nonsingular 1 m).
  { intros x Hx i Hi. assert (i = O) by lia. subst i. specialize (Hx O Hi). unfold mvec in Hx. cbn in Hx.
    assert (E : m 0%nat 0%nat * x 0%nat = 0) by lra. apply Rmult_integral in E. tauto. }
  pose proof (inv_solves 1 L OK m Hn d O ltac:(lia)) as E. unfold mvec in E. cbn in E.
  apply (Rmult_eq_reg_r (m 0%nat 0%nat)); [|exact Hm].
  replace (d 0%nat * d 0%nat / m 0%nat 0%nat * m 0%nat 0%nat) with (d 0%nat * d 0%nat) by (field; exact Hm).
  transitivity (d 0%nat * (0 + m 0%nat 0%nat * (0 + lu_inv L 1 [[m 0%nat 0%nat]] 0%nat 0%nat * d 0%nat))); [|rewrite E; reflexivity].
  unfold tab; cbn [map seq]. ring.
Qed.
(** Finding: for pairs of galaxies and redshifts the slopes of the first pair are used for the magnitude errors of every pair: the second galaxy gets 1 instead of 1/2. *)
Theorem C47_pairs_refuted : exists t gs zs, forall L, gsl_ok 1 L ->
  nth_error (calculate_pairs L t false 1 2 gs zs) 1 = Some 1 /\
  pair_value L t false 1 (gs 1%nat) (zs 1%nat) = 1 / 2.
Proof.
  exists tab_bad, (fun _ => gal_bad), (fun i => i). intros L OK.
  assert (Hp : forall w, r_cov w = (fun _ _ => 1) -> passes_sigint sigint_default 1 w)
    by (intros w Hw j _; rewrite Hw; unfold sigint_default; lra).
  assert (Hab : forall m, 1 <= m 0%nat 0%nat -> above 1 m min_eigenval).
  { intros m Hm x. unfold norm2, qform, min_eigenval. cbn. pose proof (Rle_0_sqr (x 0%nat)). unfold Rsqr in *. nra. }
  assert (Hsy : forall m, symmetric 1 m) by (intros m i j Hi Hj; assert (i = O) by lia; assert (j = O) by lia; subst; reflexivity).
  assert (E : forall w, r_cov w = (fun _ _ => 1) -> row_dist L true false sigint_default 1 w
     = row_vdc w 0%nat * row_vdc w 0%nat / row_cov false 1 w 0%nat 0%nat).
  { intros w Hw. rewrite (row_dist_chi L false _ 1 w (Hp w Hw)).
    assert (1 <= row_cov false 1 w 0%nat 0%nat).
    { unfold row_cov. rewrite Hw, cimat_entry, cobsmat_entry. unfold mrotmat. cbn.
      pose proof (Rle_0_sqr (r_slope_ci w 0%nat * r_refmagerr w)). pose proof (Rle_0_sqr (r_magerr w 0%nat)).
      pose proof (Rle_0_sqr (r_magerr w 1%nat)). unfold Rsqr in *. lra. }
    rewrite (fix_same 1 L OK _ (Hsy _) (Hab _ H)). apply chi1; [exact OK|lra]. }
  split.
  - unfold calculate_pairs. rewrite dist_nth by lia. f_equal.
    rewrite (row_dist_eq _ _ _ _ _ _ _ (pairs_rows tab_bad 1 (fun _ => gal_bad) (fun i => i) 1)).
    cbn [negb]. rewrite E by reflexivity. unfold row_cov. rewrite cimat_entry, cobsmat_entry. unfold row_vdc, mrotmat. cbn. unfold scaled_err. cbn. field.
  - unfold pair_value. cbn [negb]. rewrite E by reflexivity. unfold row_cov. rewrite cimat_entry, cobsmat_entry. unfold row_vdc, mrotmat. cbn. unfold scaled_err. cbn. field.
Qed.
Print Assumptions C47_pairs_refuted.
(** the covariance stack must be laid out with the redshift axis slowest: from a row-major
    (color, color, redshift) array another redshift's entry is read *)
Theorem C47_layout_refuted ncol nz (cov : nat -> mat) a : (2 <= ncol)%nat -> (2 <= nz)%nat ->
  (forall j k i, (j < ncol)%nat -> (k < ncol)%nat -> (i < nz)%nat -> a_cov a ((j * ncol + k) * nz + i)%nat = cov i j k) ->
  r_cov (row1 ncol a 0) 0%nat 1%nat = cov 1%nat 0%nat 0%nat.
Proof.
  intros Hc Hz H. cbn. rewrite <- (H 0%nat 0%nat 1%nat) by lia. f_equal. lia.
Qed.
Print Assumptions C47_layout_refuted.

(** which mode is chosen, and what comes back *)
Theorem C47_result L cc cl np mode ncol ncalc a :
  compute_result L cc cl np mode ncol ncalc a =
  match cc, cl with
  | true, true => Ok [chisq_dist L mode true np sigint_default ncol ncalc a; chisq_dist L mode false np sigint_default ncol ncalc a]
  | true, false => Ok [chisq_dist L mode true np sigint_default ncol ncalc a]
  | false, true => Ok [chisq_dist L mode false np sigint_default ncol ncalc a]
  | false, false => Err UnboundLocalError end.
Proof. destruct cc, cl; reflexivity. Qed.
Print Assumptions C47_result.

(** non-vacuity: a library for one and two colors exists, and a galaxy half a magnitude off in one of
    two uncorrelated colors of variance 1/4, with errors 1/2 in each band *)
Example lib_one : gsl_ok 1 small_gsl. Proof. exact small_ok1. Qed.
Example lib_two : gsl_ok 2 small_gsl. Proof. exact small_ok2. Qed.
Definition row_ex : row :=
  {| r_cov := fun j k => if Nat.eqb j k then 1/4 else 0; r_c := fun _ => 1; r_slope_ci := fun _ => 0; r_slope := fun _ => 0;
     r_piv := 0; r_refmag := 20; r_refmagerr := 0; r_magerr := fun _ => 1/2;
     r_color := fun j => match j with O => 1/2 | _ => 1 end; r_lup := fun _ => 0 |}.
Example row_ex_ok : symmetric 2 (r_cov row_ex) /\ passes_sigint sigint_default 2 row_ex /\
  above 2 (r_cov row_ex) min_eigenval /\ row_cov false 2 row_ex 0%nat 1%nat = -1/4 /\ row_vdc row_ex 0%nat = 1/2.
Proof.
  split; [|split; [|split; [|split]]].
  - intros i j _ _. cbn. rewrite Nat.eqb_sym. reflexivity.
  - intros j Hj. cbn. rewrite Nat.eqb_refl. unfold sigint_default. lra.
  - intros x. unfold qform, norm2, min_eigenval. cbn. pose proof (Rle_0_sqr (x 0%nat)). pose proof (Rle_0_sqr (x 1%nat)). unfold Rsqr in *. lra.
  - unfold row_cov. rewrite cimat_entry, cobsmat_entry. unfold mrotmat. cbn. lra.
  - unfold row_vdc. cbn. lra.
Qed.

(** * C71 *)
(** the results depend only on the offsets in [reads] … *)
Theorem C71_depends L mode dc np sigint ncol ncalc a a' :
  (forall x p, In (x, p) (reads mode ncol ncalc) -> sel a x p = sel a' x p) ->
  chisq_dist L mode dc np sigint ncol ncalc a = chisq_dist L mode dc np sigint ncol ncalc a'.
Proof. apply reads_enough. Qed.
Print Assumptions C71_depends.
(** … and with one redshift those are inside the arrays whenever the checks pass *)
Theorem C71_one_redshift s ncol ncalc x p : check_shapes s = Ok (0%nat, ncol, ncalc) -> plain s ->
  In (x, p) (reads 0 ncol ncalc) -> (p < size (shape_of s ncol ncalc x))%nat.
Proof. intros H Hp. apply (bounds s 0 ncol ncalc x p H Hp); [congruence|discriminate]. Qed.
Print Assumptions C71_one_redshift.
(** with many redshifts the number of magnitudes and (mode 2) the covariance rows are not checked *)
Theorem C71_many_partial s mode ncol ncalc x p : check_shapes s = Ok (mode, ncol, ncalc) -> plain s ->
  (mode <> 0%nat -> (1 <= size (atleast_1d (s_refmag s)))%nat) ->
  (mode = 2%nat -> (ncalc <= size (atleast_1d (s_refmag s)))%nat /\ s_cov s = [ncol; ncol; ncalc]) ->
  In (x, p) (reads mode ncol ncalc) -> (p < size (shape_of s ncol ncalc x))%nat.
Proof. apply bounds. Qed.
Print Assumptions C71_many_partial.
(** Finding: there are accepted shapes for which reference magnitudes, or covariance entries, are read past the end. *)
Theorem C71_many_refuted :
  (exists s ncol ncalc p, check_shapes s = Ok (2%nat, ncol, ncalc) /\ plain s /\
     In (Arefmag, p) (reads 2 ncol ncalc) /\ (size (shape_of s ncol ncalc Arefmag) <= p)%nat) /\
  (exists s ncol ncalc p, check_shapes s = Ok (2%nat, ncol, ncalc) /\ plain s /\
     In (Acov, p) (reads 2 ncol ncalc) /\ (size (shape_of s ncol ncalc Acov) <= p)%nat).
Proof.
  split.
  - exists {| s_cov := [2;2;2]%nat; s_c := [2;2]%nat; s_slope := [2;2]%nat; s_piv := [2]%nat; s_refmag := [1]%nat;
              s_refmagerr := Some [2]%nat; s_magerr := [2;3]%nat; s_color := [2;2]%nat; s_lup := None |}, 2%nat, 2%nat, 1%nat.
    repeat split; cbn; try congruence; try lia; [intros t [= <-]; cbn; lia|tauto].
  - exists {| s_cov := [1;1;2]%nat; s_c := [2;2]%nat; s_slope := [2;2]%nat; s_piv := [2]%nat; s_refmag := [2]%nat;
              s_refmagerr := None; s_magerr := [2;3]%nat; s_color := [2;2]%nat; s_lup := None |}, 2%nat, 2%nat, 7%nat.
    repeat split; cbn; try congruence; try lia; tauto.
Qed.
Print Assumptions C71_many_refuted.
(** Shapes that are refused are a ValueError, or an IndexError where an array has too few dimensions. *)
Theorem C71_refused s e : check_shapes s = Err e -> e = ValueError \/ e = IndexError.
Proof.
  pose (ok := fun (A : Type) (r : res A) => forall e, r = Err e -> e = ValueError \/ e = IndexError).
  assert (B : forall A C (m : res A) (f : A -> res C), ok A m -> (forall a, ok C (f a)) -> ok C (bind m f)).
  { intros A C m f M F x X. destruct m as [a|y]; cbn [bind] in X; [exact (F a x X)|injection X as ->; exact (M x eq_refl)]. }
  assert (N : forall b, ok unit (need b)) by (intros [] x X; [discriminate|injection X as <-; left; reflexivity]).
  assert (D : forall l k, ok nat (dim l k)) by (intros l k x; unfold dim; destruct (nth_error l k); intros X; [discriminate|injection X as <-; right; reflexivity]).
  assert (V : forall A, ok A (Err ValueError)) by (intros A x X; injection X as <-; left; reflexivity). assert (O : forall A a, ok A (Ok a)) by (intros A a x X; discriminate).
  assert (N2 : forall l a b, ok unit (need2 l a b)) by (intros l a b; apply B; [apply D|]; intros d; destruct (Nat.eqb d a); [apply B; [apply D|intros; apply N]|apply V]).
  enough (K : ok _ (check_shapes s)) by (intros H; exact (K e H)). unfold check_shapes. apply B.
  - destruct (s_c s) as [|x [|y [|z t]]]; [apply V|apply O|apply O|apply V].
  - intros [mode ncol]. cbn zeta. apply B; [apply N|]. intros _. destruct mode as [|[|mode]]; repeat first [apply O|apply N|apply N2|apply D|apply V|(apply B; [|intros ?])].
Qed.
Print Assumptions C71_refused.
Example shapes_ok : check_shapes {| s_cov := [3;3]%nat; s_c := [3]%nat; s_slope := [3]%nat; s_piv := []; s_refmag := [5]%nat;
   s_refmagerr := Some [5]%nat; s_magerr := [5;4]%nat; s_color := [5;3]%nat; s_lup := Some [5;3]%nat |} = Ok (0, 3, 5)%nat.
Proof. reflexivity. Qed.
