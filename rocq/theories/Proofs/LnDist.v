(** Proofs about the log density. *)
From Coq Require Import Reals Lra Lia.
From Verif.Base Require Import Py.
From Verif.Model Require Import BkgGen ZredColor LnDist.
From Verif.Spec Require Import ZredColor LnDist.
From Verif.Proofs Require Import BkgGen Solver ZredColor.
From Coq Require Import List. Import ListNotations.
Local Open Scope R_scope.

Lemma weight_pos p mag i : 0 < weight p mag i <-> 0 < l_vol p i.
Proof.
  unfold weight. set (a := Rpower 10 _ * exp _). assert (A : 0 < a) by (apply Rmult_lt_0_compat; apply exp_pos). split; intros H.
  - destruct (Rlt_or_le 0 (l_vol p i)) as [L|L]; [exact L|]. assert (a * l_vol p i <= a * 0) by (apply Rmult_le_compat_l; lra). lra.
  - apply Rmult_lt_0_compat; assumption.
Qed.
Lemma exp_density p chisq mag i : 0 < l_vol p i -> exp (lndensity p chisq mag i) = posterior p chisq mag i.
Proof.
  intros V. unfold lndensity. pose proof (proj2 (weight_pos p mag i) V) as W. rewrite (proj2 (Rltb_iff _ _) W). rewrite exp_plus, exp_ln by exact W.
  unfold weight, posterior, luminosity. rewrite Rpower_mult. rewrite !Rmult_assoc. do 3 f_equal. ring.
Qed.
Lemma posterior_pos p chisq mag i : 0 < l_vol p i -> 0 < posterior p chisq mag i.
Proof. intros V. rewrite <- exp_density by exact V. apply exp_pos. Qed.
Lemma no_density p chisq mag i : l_vol p i <= 0 -> lndensity p chisq mag i = -100000000000.
Proof. intros V. unfold lndensity. destruct (Rltb 0 (weight p mag i)) eqn:E; [|reflexivity]. apply Rltb_iff, weight_pos in E. lra. Qed.
Lemma counts_weighty g p chisq mag i : (forall m, In m (zbins g (limited g mag)) -> 0 < l_vol p m) ->
  counts g p chisq mag i <-> weighty g mag (lndensity p chisq mag) i.
Proof.
  intros V. unfold counts, weighty. split; intros (A & B & C); (split; [exact A|]; split; [exact B|]); intros m I.
  - specialize (C m I). pose proof (posterior_pos p chisq mag m (V m I)) as Pm. rewrite <- !exp_density in C by (apply V; assumption). rewrite <- !exp_density in Pm by (apply V; assumption).
    apply exp_lt_inv. rewrite exp_ln by lra. unfold Rminus. rewrite exp_plus, exp_Ropp. apply (Rmult_lt_reg_r (exp (lndensity p chisq mag m))); [exact Pm|]. rewrite Rmult_assoc, Rinv_l by lra. lra.
  - specialize (C m I). pose proof (posterior_pos p chisq mag m (V m I)) as Pm. rewrite <- !exp_density by (apply V; assumption). rewrite <- !exp_density in Pm by (apply V; assumption).
    apply exp_increasing in C. rewrite exp_ln in C by lra. unfold Rminus in C. rewrite exp_plus, exp_Ropp in C. apply (Rmult_lt_compat_r (exp (lndensity p chisq mag m))) in C; [|exact Pm].
    rewrite Rmult_assoc, Rinv_l in C by lra. lra.
Qed.
Lemma integ_scale g k f l : integ g (fun i => k * f i) l = k * integ g f l.
Proof. rewrite (integ_ext g (fun i => k * f i) (fun i => k * f i + 0 * f i) l) by (intros; ring). rewrite integ_lin. ring. Qed.
Lemma zmean_scale g k f l : k <> 0 -> zmean g (fun i => k * f i) l = zmean g f l.
Proof.
  intros K. unfold zmean. rewrite (integ_ext g (fun i => k * f i * zg_z g i) (fun i => k * (f i * zg_z g i)) l) by (intros; ring). rewrite !integ_scale.
  unfold Rdiv. rewrite Rinv_mult. replace (k * integ g (fun i => f i * zg_z g i) l * (/ k * / integ g f l)) with (k * / k * (integ g (fun i => f i * zg_z g i) l * / integ g f l)) by ring. rewrite Rinv_r by exact K. ring.
Qed.
Lemma zerr_scale g k f l : k <> 0 -> zerr g (fun i => k * f i) l = zerr g f l.
Proof.
  intros K. unfold zerr. rewrite zmean_scale by exact K. rewrite (integ_ext g (fun i => k * f i * (zg_z g i * zg_z g i)) (fun i => k * (f i * (zg_z g i * zg_z g i))) l) by (intros; ring). rewrite !integ_scale.
  unfold Rdiv. rewrite Rinv_mult. replace (k * integ g (fun i => f i * (zg_z g i * zg_z g i)) l * (/ k * / integ g f l)) with (k * / k * (integ g (fun i => f i * (zg_z g i * zg_z g i)) l * / integ g f l)) by ring.
  rewrite Rinv_r by exact K. rewrite Rmult_1_l. reflexivity.
Qed.
Lemma zmean_ext g f h l : (forall i, In i l -> f i = h i) -> zmean g f l = zmean g h l.
Proof. intros E. unfold zmean. rewrite (integ_ext g f h l E). rewrite (integ_ext g (fun i => f i * zg_z g i) (fun i => h i * zg_z g i) l); [reflexivity|]. intros i I. rewrite (E i I). reflexivity. Qed.
Lemma zerr_ext g f h l : (forall i, In i l -> f i = h i) -> zerr g f l = zerr g h l.
Proof. intros E. unfold zerr. rewrite (zmean_ext g f h l E), (integ_ext g f h l E). rewrite (integ_ext g (fun i => f i * (zg_z g i * zg_z g i)) (fun i => h i * (zg_z g i * zg_z g i)) l); [reflexivity|]. intros i I. rewrite (E i I). reflexivity. Qed.
