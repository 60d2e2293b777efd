(** C51: the order of the color calibration; C73: the calibrated covariance. *)
From Coq Require Import Permutation Reals Lra Lia.
From Verif.Base Require Import Py PyLemmas.
From Verif.Model Require Import CalOrder Chisq.
From Verif.Spec Require Import Chisq.
From Verif.Proofs Require Import Chisq CalOrder.
Local Open Scope R_scope.

(** every color is processed exactly once, for every number of bands and every reference band *)
Theorem C51_every_color lup fr colour fit ref nmag refmag : (ref < nmag)%nat ->
  exists st es, calibrate_diagonal lup fr colour fit ref nmag refmag = Ok (st, es) /\
    Permutation (map e_col es) (seq 0 (nmag - 1)).
Proof.
  intros H. destruct (calibrate_ok lup fr colour fit ref refmag nmag H) as (st & es & E & _ & _ & Hc & _).
  exists st, es. split; [exact E|]. rewrite Hc. apply order_colors, H.
Qed.
Print Assumptions C51_every_color.

(** the first color fits the ratios of both its bands; every later one has exactly one band whose ratio
    is known already: it rescales the error of that band by that band's ratio, and fits and records
    the ratio of the other, which was not known *)
Theorem C51_shared_band lup colour fit ref nmag refmag st es : (ref < nmag)%nat ->
  calibrate_diagonal lup true colour fit ref nmag refmag = Ok (st, es) ->
  let recorded i := concat (map e_set (firstn i es)) in
  forall i e, nth_error es i = Some e ->
    (i = 0%nat -> e_scaled e = None /\ e_fit e = [0; 1]%nat /\ e_set e = [e_col e; e_col e + 1]%nat) /\
    (i <> 0%nat -> exists s, (s < 2)%nat /\ e_scaled e = Some (s, e_col e + s)%nat /\ In (e_col e + s)%nat (recorded i) /\
       e_fit e = [1 - s]%nat /\ e_set e = [e_col e + (1 - s)]%nat /\ ~ In (e_col e + (1 - s))%nat (recorded i)).
Proof.
  intros Hn H recorded i e He. destruct (calibrate_ok lup true colour fit ref refmag nmag Hn) as (st' & es' & E & _ & _ & Hc & Hev).
  rewrite H in E. injection E as <- <-. pose proof (Hev i e He) as HE. cbn [ev_ok] in HE. destruct HE as [H0 H1]. split; [exact H0|].
  intros Hi. destruct (H1 Hi) as (s & b & Hs & Hs2 & Hb & Hbs & Hf & Hset & Hnew). subst b. exists s.
  assert (Hil : (1 <= i <= length es)%nat) by (assert (i < length es)%nat by (apply nth_error_Some; congruence); lia).
  pose proof (before_span ref nmag es Hn Hc Hev i Hil) as Hsp. change (concat (map e_set (firstn i es))) with (before es i) in *.
  repeat split; try assumption; [apply Hsp, Hbs|intros Hin; apply Hnew, Hsp, Hin].
Qed.
Print Assumptions C51_shared_band.

(** at the end every band has a ratio *)
Theorem C51_all_bands lup fr colour fit ref nmag refmag st es : (ref < nmag)%nat -> (2 <= nmag)%nat ->
  calibrate_diagonal lup fr colour fit ref nmag refmag = Ok (st, es) ->
  forall b, (b < nmag)%nat -> exists v, k_ratio st b = Some v.
Proof.
  intros Hn H2 H b Hb. destruct (calibrate_ok lup fr colour fit ref refmag nmag Hn) as (st' & es' & E & _ & R & _).
  rewrite H in E. injection E as <- <-. apply (R ltac:(lia) b). lia.
Qed.
Print Assumptions C51_all_bands.

(** with asinh magnitudes, the model magnitudes of all bands are built from the reference band so that
    their differences are the model colors *)
Theorem C51_model_magnitudes fr colour fit ref nmag refmag st es : (ref < nmag)%nat ->
  calibrate_diagonal true fr colour fit ref nmag refmag = Ok (st, es) ->
  exists f, (forall b, (b < nmag)%nat -> k_mag st b = Some (f b)) /\ f ref = refmag /\
    forall j, (j < nmag - 1)%nat -> f j - f (j + 1)%nat = colour j.
Proof.
  intros Hn H. destruct (calibrate_ok true fr colour fit ref refmag nmag Hn) as (st' & es' & E & M & _).
  rewrite H in E. injection E as <- <-. destruct (M eq_refl) as (f & F1 & F2 & F3). exists f. split; [|split; [exact F2|]].
  - intros b Hb. apply F1. lia.
  - intros j Hj. apply F3; lia.
Qed.
Print Assumptions C51_model_magnitudes.
(** griz with reference band z and ugriz with reference band i *)
Example C51_orders : map t_col (order 3 4) = [2; 1; 0]%nat /\ map t_col (order 3 5) = [3; 2; 1; 0]%nat /\ map t_col (order 1 4) = [1; 2; 0]%nat.
Proof. repeat split. Qed.

(** ** C73: the covariance with a constant correlation is symmetric, has the calibrated scatters on its
    diagonal and the correlation off it, and is positive definite *)
Theorem C73_entries ncol rho sg i j : (i < ncol)%nat -> (j < ncol)%nat ->
  offdiagonal ncol rho sg (diagonal sg) i j = if Nat.eqb i j then sg i * sg i else rho * sg i * sg j.
Proof. intros Hi Hj. rewrite offdiag_entry by assumption. unfold diagonal. rewrite Nat.eqb_refl. reflexivity. Qed.
Print Assumptions C73_entries.
Theorem C73_positive_definite ncol rho sg x : 0 <= rho < 1 -> (forall j, (j < ncol)%nat -> 0 < sg j) ->
  (exists k, (k < ncol)%nat /\ x k <> 0) -> 0 < qform ncol (offdiagonal ncol rho sg (diagonal sg)) x.
Proof.
  intros Hr Hs (k & Hk & Hx). rewrite const_corr_form. specialize (Hs k Hk) as Hsk.
  pose proof (sumn_sq_pos ncol (fun i => sg i * x i) k Hk) as H1. cbn beta in H1.
  assert (H2 : sg k * x k <> 0) by (intros H; apply Rmult_integral in H; destruct H; lra). specialize (H1 H2).
  pose proof (Rle_0_sqr (sumn ncol (fun i => sg i * x i))) as H3. unfold Rsqr in H3.
  assert (0 <= rho * (sumn ncol (fun i => sg i * x i) * sumn ncol (fun i => sg i * x i))) by (apply Rmult_le_pos; lra).
  assert (0 < (1 - rho) * sumn ncol (fun i => sg i * x i * (sg i * x i))) by (apply Rmult_lt_0_compat; lra). lra.
Qed.
Print Assumptions C73_positive_definite.
(** nothing checks the setting: with a correlation of one or more the matrix is never positive definite *)
Theorem C73_unchecked_refuted ncol rho sg : (2 <= ncol)%nat -> 1 <= rho -> (forall j, (j < ncol)%nat -> 0 < sg j) ->
  exists x, (exists k, (k < ncol)%nat /\ x k <> 0) /\ qform ncol (offdiagonal ncol rho sg (diagonal sg)) x <= 0.
Proof.
  intros Hn Hr Hs. set (x := fun i : nat => if Nat.eqb i 0 then / sg 0%nat else if Nat.eqb i 1 then - / sg 1%nat else 0).
  pose proof (Hs 0%nat ltac:(lia)) as S0. pose proof (Hs 1%nat ltac:(lia)) as S1.
  exists x. split. { exists 0%nat. split; [lia|]. cbn. pose proof (Rinv_0_lt_compat _ S0). lra. }
  rewrite const_corr_form.
  assert (E0 : sumn ncol (fun i => sg i * x i) = 0).
  { destruct ncol as [|[|n]]; [lia|lia|]. clear Hs Hn. induction n as [|n IH].
    - cbn. field. lra.
    - cbn [sumn] in IH |- *. rewrite IH. subst x. cbn. ring. }
  rewrite E0. rewrite Rmult_0_l, Rmult_0_r, Rplus_0_r.
  pose proof (sumn_nonneg ncol (fun i => sg i * x i * (sg i * x i)) (fun i _ => Rle_0_sqr _)) as Hp. nra.
Qed.
Print Assumptions C73_unchecked_refuted.
