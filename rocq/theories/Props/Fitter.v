(** C41, C67-C69: the calibration fits. *)
From Coq Require Import QArith Lqa Reals Lra Permutation.
From Verif.Base Require Import Py PyLemmas Sort.
From Verif.Model Require Import BkgGen Fitter.
From Verif.Spec Require Import Fitter.
From Verif.Proofs Require Import BkgGen Fitter.
Local Open Scope nat_scope.

(** C41: when the bluer band's error ratio is being fitted, an evaluation gives the intended objective after any history
    of evaluations; when the scatter is not fitted the value does not depend on the history either. *)
Theorem C41_fixed_partial : forall P (S : fsetup P) gs gsig err0 ps p,
  (fs_scatter S = true -> fs_ind0 S = true -> snd (evaluate S gs gsig (evaluations S gs gsig err0 ps) p) = objective S gs err0 p) /\
  (fs_scatter S = false -> snd (evaluate S gs gsig (evaluations S gs gsig err0 ps) p) = snd (evaluate S gs gsig err0 p)).
Proof.
  intros P S gs gsig err0 ps p. split.
  - intros H1 H2. rewrite keep_cols by (left; exact H2). unfold evaluate. rewrite H1. reflexivity.
  - intros H1. rewrite keep_cols by (right; exact H1). reflexivity.
Qed.
Print Assumptions C41_fixed_partial.
(** Without error ratios (the default) every evaluation adds the redder band's error once more: after n evaluations the
    objective is that of data whose first error column has grown by n times the second. *)
Theorem C41_drift_refuted : forall P (S : fsetup P) gs gsig err0 ps p, fs_scatter S = true -> fs_ind0 S = false -> fs_ind1 S = false ->
  List.length err0 = List.length gs ->
  snd (evaluate S gs gsig (evaluations S gs gsig err0 ps) p) = objective S gs (drifted (List.length ps) gs err0) p.
Proof. intros P S gs gsig err0 ps p H1 H2 H3 Hl. rewrite drift_many by assumption. unfold evaluate. rewrite H1. reflexivity. Qed.
Print Assumptions C41_drift_refuted.
(** So two evaluations at the same parameters differ: for a galaxy on the model color the value rises each time. *)
Theorem C41_rises_refuted : forall P (S : fsetup P) g e p k m, fs_scatter S = true -> fs_ind0 S = false -> fs_ind1 S = false ->
  fg_p g = 1%R -> fg_col g = fs_mean S p g -> (forall s, fs_phi S g s = 1%R) -> (0 < fs_min S)%R -> (0 <= e)%R -> (0 < fg_e1 g)%R -> k < m ->
  (snd (evaluate S [g] [] (evaluations S [g] [] [e] (repeat p k)) p) < snd (evaluate S [g] [] (evaluations S [g] [] [e] (repeat p m)) p))%R.
Proof.
  intros P S g e p k m H1 H2 H3 Hp Hc Hf Hmin He He1 Hkm. rewrite !C41_drift_refuted by (try assumption; reflexivity). rewrite !repeat_length.
  unfold objective, total, drifted, e2s, sig2s, e2_of. rewrite H1, H2, H3. cbn [combine map fst snd fold_right].
  assert (Hx : (0 < sig2 S p g (e + INR k * fg_e1 g + fg_e1 g))%R).
  { unfold sig2. assert (0 < Rmax (fs_scat S p g) (fs_min S))%R by (apply (Rlt_le_trans _ (fs_min S)); [exact Hmin|apply Rmax_r]).
    assert (0 < Rmax (fs_scat S p g) (fs_min S) ^ 2)%R by (apply pow_lt; assumption). assert (0 <= INR k * fg_e1 g)%R by (apply Rmult_le_pos; [apply pos_INR|lra]). lra. }
  assert (Hy : (sig2 S p g (e + INR k * fg_e1 g + fg_e1 g) < sig2 S p g (e + INR m * fg_e1 g + fg_e1 g))%R).
  { unfold sig2. assert (INR k < INR m)%R by (apply lt_INR, Hkm). assert (INR k * fg_e1 g < INR m * fg_e1 g)%R by (apply Rmult_lt_compat_r; assumption). lra. }
  pose proof (like1_mono S p g _ _ Hp Hc Hf Hx Hy). lra.
Qed.
Print Assumptions C41_rises_refuted.
(** The intended objective uses, for each galaxy, the squared width given by the scatter and by the errors with their ratio. *)
Theorem C41_width : forall P (S : fsetup P) gs err0 p,
  objective S gs err0 p = total S p gs (map (fun gx => squared_width S p (fst gx) (snd gx)) (combine gs err0)).
Proof.
  intros P S gs err0 p. unfold objective. f_equal. unfold sig2s, e2s. revert err0. induction gs as [|g gs IH]; intros [|x err0]; try reflexivity.
  cbn [combine map fst snd]. f_equal; [|apply IH]. unfold sig2, e2_of, squared_width, Rmax.
  destruct (Rle_dec (fs_scat S p g) (fs_min S)) as [A|A]; destruct (Rlt_dec (fs_scat S p g) (fs_min S)) as [B|B]; try (exfalso; lra);
    destruct (fs_ind0 S), (fs_ind1 S); try ring; assert (fs_scat S p g = fs_min S) as -> by lra; ring.
Qed.
Print Assumptions C41_width.
(** Each start of a fit with fixed scatter grows the column as well. *)
Theorem C41_start_refuted : forall P (S : fsetup P) gs err0 p0, fs_scatter S = false -> fs_ind0 S = false -> fs_ind1 S = false ->
  fst (start_fit S gs err0 p0) = drifted 1 gs err0.
Proof. intros P S gs err0 p0 H1 H2 H3. unfold start_fit, col_after, e2s, e2_of, drifted. rewrite H1, H2, H3. cbn [fst]. apply map_ext. intros [g x]. cbn. lra. Qed.
Print Assumptions C41_start_refuted.
Definition ex_setup : fsetup unit := mkFS true false false (1 / 1000)%R (fun _ _ => 1%R) (fun _ _ => (5 / 100)%R) (fun _ _ => 1%R) (fun _ _ => 1%R) (fun _ => 0%R).
Example C41_example : (snd (evaluate ex_setup [mkFG 1 (1 / 100) 1 0] [] [(1 / 100)%R] tt) <
  snd (evaluate ex_setup [mkFG 1 (1 / 100) 1 0] [] (evaluations ex_setup [mkFG 1 (1 / 100) 1 0] [] [(1 / 100)%R] [tt; tt; tt]) tt))%R.
Proof. apply (C41_rises_refuted unit ex_setup (mkFG 1 (1 / 100) 1 0) (1 / 100) tt 0 3); cbn; try reflexivity; try lra. lia. Qed.

(** C67: whatever is fitted, the answer of the optimiser is cut into consecutive pieces of the right lengths, in the order
    mean, slope, scatter (with the two error-ratio parameters at its end). *)
Theorem C67_pieces : forall A f c (x : list A), List.length x = mean_count f c + slope_count f c + (if pf_scatter f then n_scatter c + err_count f else 0) ->
  exists l m r, x = l ++ m ++ r /\ unpack f c x = (if pf_mean f then [l] else []) ++ (if pf_slope f then [m] else []) ++ (if pf_scatter f then [r] else []) /\
    List.length l = mean_count f c /\ List.length m = slope_count f c /\ List.length r = (if pf_scatter f then n_scatter c + err_count f else 0).
Proof.
  intros A f c x H. destruct (split3 x _ _ _ H) as (l & m & r & -> & Hl & Hm & Hr). exists l, m, r. split; [reflexivity|]. split; [apply unpack_split; assumption|auto].
Qed.
Print Assumptions C67_pieces.
(** An optimiser that returns its start gives the start values back. *)
Theorem C67_roundtrip : forall A f c (pm ps pc : list A) e0 e1, List.length pm = n_mean c -> List.length ps = n_slope c -> List.length pc = n_scatter c ->
  unpack f c (pack f pm ps pc e0 e1) = (if pf_mean f then [pm] else []) ++ (if pf_slope f then [ps] else []) ++
    (if pf_scatter f then [pc ++ (if pf_err f then [e0; e1] else [])] else []).
Proof.
  intros A f c pm ps pc e0 e1 H1 H2 H3. unfold pack. rewrite unpack_split.
  - destruct (pf_mean f), (pf_slope f), (pf_scatter f); reflexivity.
  - unfold mean_count. destruct (pf_mean f); [exact H1|reflexivity].
  - unfold slope_count. destruct (pf_slope f); [exact H2|reflexivity].
  - destruct (pf_scatter f); [|reflexivity]. rewrite app_length, H3. unfold err_count. destruct (pf_err f); reflexivity.
Qed.
Print Assumptions C67_roundtrip.
(** There is one bound for each parameter, the scatter bounds at the scatter parameters. *)
Theorem C67_bounds : forall A f c (pm ps pc : list A) e0 e1, List.length pm = n_mean c -> List.length ps = n_slope c -> List.length pc = n_scatter c ->
  List.length (bounds f c) = List.length (pack f pm ps pc e0 e1) /\
  (pf_scatter f = true -> forall i, i < n_scatter c -> nth_error (bounds f c) (scatter_index f c + i) = Some (Scat i)).
Proof.
  intros A f c pm ps pc e0 e1 H1 H2 H3. split.
  - unfold bounds, pack. rewrite !app_length. f_equal; [destruct (pf_mean f); [rewrite repeat_length; auto|reflexivity]|].
    f_equal; [destruct (pf_slope f); [rewrite repeat_length; auto|reflexivity]|]. destruct (pf_scatter f); [|reflexivity]. rewrite !app_length, map_length, seq_length, H3. destruct (pf_err f); reflexivity.
  - intros E i Hi. unfold bounds. rewrite E, app_assoc.
    assert (Hlen : List.length ((if pf_mean f then repeat Free (n_mean c) else []) ++ (if pf_slope f then repeat Free (n_slope c) else [])) = scatter_index f c).
    { unfold scatter_index, slope_index, mean_count, slope_count. rewrite app_length. destruct (pf_mean f), (pf_slope f); rewrite ?repeat_length; reflexivity. }
    rewrite nth_error_app2 by lia. rewrite Hlen. replace (scatter_index f c + i - scatter_index f c) with i by lia.
    rewrite nth_error_app1 by (rewrite map_length, seq_length; exact Hi). rewrite nth_error_map. rewrite (nth_error_nth' (seq 0 (n_scatter c)) 0) by (rewrite seq_length; exact Hi).
    rewrite seq_nth by exact Hi. reflexivity.
Qed.
Print Assumptions C67_bounds.
Theorem C67_nothing_to_fit : forall A c (pm ps pc : list A) e0 e1 err, fit_pack (mkPF false false false err) c pm ps pc e0 e1 = Err ValueError.
Proof. reflexivity. Qed.
Print Assumptions C67_nothing_to_fit.
Example C67_example : unpack (mkPF true false true true) (mkPC 2 3 1) [10; 11; 20; 30; 31] = [[10; 11]; [20; 30; 31]].
Proof. reflexivity. Qed.

(** C68: for every correlation, and all errors, the covariance of two colors has positive determinant, the metric is its
    inverse and the exponent is never positive. *)
Theorem C68_invertible : forall adj ej ej1 ek ek1 r s1 s2, (0 < s1)%Q -> (0 < s2)%Q -> (adj = true -> ej1 == ek)%Q ->
  let a := cadd (intr r s1 s2) (noise adj ej ej1 ek ek1) in
  (0 < det2 a)%Q /\
  (c00 a * c00 (metric a) + c01 a * c01 (metric a) == 1 /\ c01 a * c01 (metric a) + c11 a * c11 (metric a) == 1 /\
   c00 a * c01 (metric a) + c01 a * c11 (metric a) == 0 /\ c01 a * c00 (metric a) + c11 a * c01 (metric a) == 0)%Q /\
  (forall d1 d2, expo a d1 d2 <= 0)%Q.
Proof.
  intros adj ej ej1 ek ek1 r s1 s2 H1 H2 Ha a. pose proof (det_pos adj ej ej1 ek ek1 r s1 s2 H1 H2 Ha) as Hd. fold a in Hd. split; [exact Hd|]. split.
  - apply metric_inv. intros X. rewrite X in Hd. discriminate.
  - intros d1 d2. apply expo_neg; [|exact Hd]. unfold a, cadd, intr, noise. cbn [c00]. pose proof (Qsq2 ej). pose proof (Qsq2 ej1). assert (0 < s1 ^ 2)%Q by (assert (E : (s1 ^ 2 == s1 * s1)%Q) by ring; rewrite E; Lqa.nra). Lqa.lra.
Qed.
Print Assumptions C68_invertible.

(** C69: the two components come back with the redder one second, each with its own weight and width, weights adding to 1;
    the data are as before. *)
Theorem C69_sorted : forall asort minimize y offset w m0 m1 s0 s1 , argsort_spec asort -> minimize (map (fun v => v + offset)%Q y) = Some [w; m0; m1; s0; s1] ->
  exists y' a b c, ecgmm asort minimize y offset = (y', Ok (a, b, c)) /\
    Forall2 Qeq y' y /\
    ((a, b, c) = ([w; 1 - w], [m0 - offset; m1 - offset], [s0; s1]) \/ (a, b, c) = ([1 - w; w], [m1 - offset; m0 - offset], [s1; s0]))%Q /\
    (forall x z, b = [x; z] -> x <= z)%Q.
Proof.
  intros asort minimize y offset w m0 m1 s0 s1 Hs Hm. unfold ecgmm. rewrite Hm.
  destruct (Hs [m0 - offset; m1 - offset]%Q) as [HP HS]. cbn [List.length] in HP.
  assert (Hy : Forall2 Qeq (map (fun v => v - offset)%Q (map (fun v => v + offset)%Q y)) y).
  { clear. induction y as [|v y IH]; cbn; constructor; [ring|exact IH]. }
  destruct (perm2 _ HP) as [E|E]; rewrite E in *.
  - exists (map (fun v => v - offset)%Q (map (fun v => v + offset)%Q y)), [w; 1 - w]%Q, [m0 - offset; m1 - offset]%Q, [s0; s1].
    split; [reflexivity|]. split; [exact Hy|]. split; [left; reflexivity|]. intros x z Hb. injection Hb as <- <-. apply (HS 0 1 0 1); reflexivity || lia.
  - exists (map (fun v => v - offset)%Q (map (fun v => v + offset)%Q y)), [1 - w; w]%Q, [m1 - offset; m0 - offset]%Q, [s1; s0].
    split; [reflexivity|]. split; [exact Hy|]. split; [right; reflexivity|]. intros x z Hb. injection Hb as <- <-. apply (HS 0 1 1 0); reflexivity || lia.
Qed.
Print Assumptions C69_sorted.
(** If the optimiser fails, the offset stays in the data. *)
Theorem C69_failure_refuted : forall asort minimize y offset, minimize (map (fun v => v + offset)%Q y) = None ->
  fst (ecgmm asort minimize y offset) = map (fun v => v + offset)%Q y.
Proof. intros asort minimize y offset H. unfold ecgmm. rewrite H. reflexivity. Qed.
Print Assumptions C69_failure_refuted.
Example C69_example : snd (ecgmm argsort (fun _ => Some [3 # 10; 9 # 10; 5 # 10; 4 # 100; 2 # 100]%Q) [1; 2]%Q 0) =
  Ok ([1 - (3 # 10); 3 # 10], [(5 # 10) - 0; (9 # 10) - 0], [2 # 100; 4 # 100])%Q.
Proof. reflexivity. Qed.
Example C68_example : (det2 (cadd (intr 2 (1 # 10) (1 # 5)) (noise true (1 # 10) (1 # 20) (1 # 20) (1 # 4))) == 8489 # 4000000)%Q.
Proof. reflexivity. Qed.
