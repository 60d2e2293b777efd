From Coq Require Import String Reals Lra.
From Verif.Base Require Import Py PyLemmas Fn.
From Verif.Model Require Import Catalog ZCorr PzRow.
From Verif.Spec Require Import ZCorr PzRow.
From Verif.Proofs Require Import Catalog ZCorr.
From Coq Require Import Lia List. Import ListNotations.
Local Open Scope R_scope.

Lemma put_same m i x v : m_cell (put m i x v) i x = v.
Proof. unfold put. cbn. rewrite upd_same, String.eqb_refl. reflexivity. Qed.
Lemma put_other m i x v j y : j <> i \/ y <> x -> m_cell (put m i x v) j y = m_cell m j y.
Proof.
  intros H. unfold put. cbn. unfold upd. destruct (Nat.eqb_spec j i) as [->|n]; [|reflexivity].
  destruct (String.eqb_spec y x); [|reflexivity]. destruct H; congruence.
Qed.
Lemma put_cols m i x v : m_cols (put m i x v) = m_cols m.
Proof. reflexivity. Qed.

(** the in-place correction is the correction of a copy *)
Lemma mem_from simps c left : forall k m i z e bins m' z' e' bins',
  corr_mem simps c k left m i (z, e, bins) = Ok (m', (z', e', bins')) ->
  corr_from simps c false k left (z, e, Some (bins, m_cell m i "pz")) = Ok (z', e', Some (bins', m_cell m' i "pz")) /\
    m_cols m' = m_cols m /\ (forall j x, j <> i \/ x <> "pz"%string -> m_cell m' j x = m_cell m j x).
Proof.
  induction left as [|l IH]; intros k m i z e bins m' z' e' bins' H; cbn [corr_mem corr_from] in *.
  - injection H as <- <- <- <-. repeat split; auto.
  - unfold corr_step. cbv zeta in *.
    destruct (pz_step simps z (z + c_dz c k z) e (c_xe c k z) (bins, m_cell m i "pz")) as [[b v]|] eqn:P; [|discriminate].
    cbn [bind fst snd] in *. apply IH in H. destruct H as (A & C & D). rewrite put_same in A.
    split; [exact A|]. split; [exact C|]. intros j x Hx. rewrite D by exact Hx. apply put_other. exact Hx.
Qed.
Lemma mem_total simps c left : forall k m i z e bins z' e' bins' vals',
  corr_from simps c false k left (z, e, Some (bins, m_cell m i "pz")) = Ok (z', e', Some (bins', vals')) ->
  exists m', corr_mem simps c k left m i (z, e, bins) = Ok (m', (z', e', bins')).
Proof.
  induction left as [|l IH]; intros k m i z e bins z' e' bins' vals' H; cbn [corr_mem corr_from] in *.
  - injection H as <- <- <- _. eexists. reflexivity.
  - unfold corr_step in H. cbv zeta in *.
    destruct (pz_step simps z (z + c_dz c k z) e (c_xe c k z) (bins, m_cell m i "pz")) as [[b v]|] eqn:P; [|discriminate].
    cbn [bind fst snd] in *. apply (IH _ (put m i "pz" v) i _ _ _ _ _ _ vals'). rewrite put_same. exact H.
Qed.

Lemma assign_col m a i x v : lower x = x -> In x (m_cols m) -> (List.length v = List.length (m_cell m i x)) ->
  assign m a i x v = Ok (put m i x v, a).
Proof.
  intros L I W. unfold assign. rewrite L, (proj2 (mem_str_iff _ _) I). cbv zeta. destruct v as [|y [|y' r]].
  - rewrite W, Nat.eqb_refl. reflexivity.
  - cbn in W. rewrite <- W. reflexivity.
  - rewrite W, Nat.eqb_refl. reflexivity.
Qed.
Lemma assign_attr m a i x v : ~ In (lower x) (m_cols m) -> assign m a i x v = Ok (m, (x, v) :: a).
Proof. intros N. unfold assign. rewrite (proj2 (mem_str_false _ _) N). reflexivity. Qed.

Lemma row_ok simps corr_of m i lam z e bins vals : rhomogeneous simps -> with_pz m -> holds simps m i lam z e bins vals ->
  c_niter (corr_of lam) <> 0%nat ->
  exists m' a z' e' bins' vals', correct_row simps corr_of m i = Ok (m', a) /\
    apply_correction simps (corr_of lam) false z e (Some (bins, vals)) = Ok (z', e', Some (bins', vals')) /\
    holds simps m' i lam z' e' bins' vals' /\ simps vals' bins' = 1 /\ with_pz m' /\
    only_row m m' i ["z_lambda"; "z_lambda_e"; "pzbins"; "pz"]%string.
Proof.
  intros HS [W1 W2] (C1 & C2 & C3 & C4 & C5 & He & Hn & Hl & [h U] & Hm) Hi.
  destruct (from_pz simps (corr_of lam) false (c_niter (corr_of lam)) 0%nat z e bins vals h HS He Hl Hn U Hm)
    as (z' & e' & b' & v' & k & E & Hk & _ & Hv & Lb & (h' & _ & U') & He' & S & _).
  rewrite <- C5 in E. destruct (mem_total _ _ _ _ _ _ _ _ _ _ _ _ _ E) as [m1 M].
  pose proof (mem_from _ _ _ _ _ _ _ _ _ _ _ _ _ M) as (E1 & K1 & F1).
  assert (m_cell m1 i "pz" = v') as P1 by congruence.
  unfold correct_row, scalar. rewrite C1, C2, C3, C4. cbn [bind]. rewrite M. cbn [bind].
  assert (In "pzbins"%string (m_cols m1)) as I1 by (rewrite K1; apply W1; cbn; tauto).
  rewrite (assign_col m1 [] i "pzbins" b'); [|reflexivity|exact I1|].
  2:{ rewrite F1 by (right; discriminate). rewrite C4. exact Lb. }
  cbn [bind fst snd]. rewrite assign_attr by (cbn; rewrite K1; exact W2). cbn [bind fst snd].
  rewrite assign_col; [|reflexivity|rewrite put_cols, K1; apply W1; cbn; tauto|].
  2:{ rewrite put_other by (right; discriminate). rewrite F1 by (right; discriminate). rewrite C2. reflexivity. }
  cbn [bind fst snd].
  rewrite assign_col; [|reflexivity|rewrite !put_cols, K1; apply W1; cbn; tauto|].
  2:{ rewrite !put_other by (right; discriminate). rewrite F1 by (right; discriminate). rewrite C3. reflexivity. }
  set (m4 := put (put (put m1 i "pzbins" b') i "z_lambda" [z']) i "z_lambda_e" [e']).
  eexists. eexists. exists z', e', b', v'. split; [reflexivity|]. split; [unfold apply_correction; rewrite <- C5; exact E|].
  assert (only_row m m4 i ["z_lambda"; "z_lambda_e"; "pzbins"; "pz"]%string) as O.
  { split; [unfold m4; rewrite !put_cols; exact K1|]. intros j x H.
    assert (j <> i \/ (x <> "z_lambda" /\ x <> "z_lambda_e" /\ x <> "pzbins" /\ x <> "pz")%string) as H'.
    { destruct H as [H|H]; [left; exact H|right]. repeat split; intros ->; apply H; cbn; tauto. }
    unfold m4. rewrite !put_other by tauto. apply F1. tauto. }
  split; [|split; [apply S; exact Hi|split; [|exact O]]].
  - unfold holds. split; [rewrite (proj2 O) by (right; cbn; intros [?|[?|[?|[?|[]]]]]; discriminate); exact C1|].
    unfold m4. split; [rewrite put_other by (right; discriminate); apply put_same|]. split; [apply put_same|].
    split; [rewrite !put_other by (right; discriminate); apply put_same|].
    split; [rewrite !put_other by (right; discriminate); exact P1|]. split; [lra|]. rewrite Lb. split; [exact Hn|].
    split; [rewrite Hv, map_length; exact Hl|]. split; [exists h'; exact U'|]. rewrite Hv. apply mass_scale; assumption.
  - split; [intros x I; rewrite (proj1 O); apply W1, I|rewrite (proj1 O); exact W2].
Qed.

Lemma rows_ok simps corr_of rows : rhomogeneous simps -> (forall lam, c_niter (corr_of lam) <> 0%nat) -> NoDup rows -> forall m, with_pz m ->
  (forall i, In i rows -> exists lam z e bins vals, holds simps m i lam z e bins vals) ->
  exists m', correct_rows simps corr_of m rows = Ok m' /\ m_cols m' = m_cols m /\
    (forall i lam z e bins vals, In i rows -> holds simps m i lam z e bins vals ->
       exists z' e' bins' vals', apply_correction simps (corr_of lam) false z e (Some (bins, vals)) = Ok (z', e', Some (bins', vals')) /\
         holds simps m' i lam z' e' bins' vals' /\ simps vals' bins' = 1) /\
    (forall j x, ~ In j rows \/ ~ In x ["z_lambda"; "z_lambda_e"; "pzbins"; "pz"]%string -> m_cell m' j x = m_cell m j x).
Proof.
  intros HS Hi. induction rows as [|i r IH]; intros D m W H.
  - exists m. cbn [correct_rows]. repeat split; auto. intros i lam z e bins vals [].
  - inversion D as [|? ? Ni D']; subst. destruct (H i (or_introl eq_refl)) as (lam & z & e & bins & vals & Hh).
    destruct (row_ok simps corr_of m i lam z e bins vals HS W Hh (Hi lam)) as (m1 & a & z' & e' & b' & v' & C & A & H1 & S & W1 & O).
    cbn [correct_rows]. rewrite C. cbn [bind fst].
    assert (forall j lam0 z0 e0 b0 v0, In j r -> holds simps m j lam0 z0 e0 b0 v0 -> holds simps m1 j lam0 z0 e0 b0 v0) as T.
    { intros j lam0 z0 e0 b0 v0 J HH. assert (j <> i) as NE by (intros ->; contradiction). unfold holds in *.
      rewrite !(proj2 O) by (left; exact NE). exact HH. }
    destruct (IH D' m1 W1) as (m' & C' & K & R & F).
    { intros j J. destruct (H j (or_intror J)) as (l0 & z0 & e0 & b0 & v0 & HH). exists l0, z0, e0, b0, v0. apply T; assumption. }
    exists m'. split; [exact C'|]. split; [rewrite K; apply O|]. split.
    + intros j l0 z0 e0 b0 v0 [<-|J] HH.
      * destruct Hh as (h1 & h2 & h3 & h4 & h5 & _). pose proof HH as (g1 & g2 & g3 & g4 & g5 & _).
        assert (l0 = lam /\ z0 = z /\ e0 = e /\ b0 = bins /\ v0 = vals) as (-> & -> & -> & -> & ->) by (repeat split; congruence).
        exists z', e', b', v'. split; [exact A|]. split; [|exact S]. unfold holds in *. rewrite !F by (left; exact Ni). exact H1.
      * apply (R j l0 z0 e0 b0 v0 J). apply T; assumption.
    + intros j x HH. rewrite F.
      * apply O. destruct HH as [HH|HH]; [left; intros ->; apply HH; left; reflexivity|right; exact HH].
      * destruct HH as [HH|HH]; [left; intros J; apply HH; right; exact J|right; exact HH].
Qed.

Lemma ratio_gt e x : 0 < e -> x <> 0 -> 1 < sqrt (x ^ 2 + e ^ 2) / e.
Proof.
  intros He Hx. pose proof (sqrt_gt e x Hx) as G. rewrite Rplus_comm in G. apply (Rmult_lt_reg_r e); [exact He|].
  unfold Rdiv. rewrite Rmult_assoc, Rinv_l by lra. lra.
Qed.
Lemma caller simps c m i z e bins vals h : rhomogeneous simps -> spacing_scaled simps -> 0 < e -> List.length vals = List.length bins ->
  (2 <= List.length bins)%nat -> runiform (List.length bins) h bins -> positive_mass simps vals -> m_cell m i "pz" = vals ->
  c_niter c <> 0%nat -> c_xe c 0 z <> 0 ->
  exists m' z' e' bins' vals', corr_mem simps c 0 (c_niter c) m i (z, e, bins) = Ok (m', (z', e', bins')) /\
    m_cell m' i "pz" = vals' /\ simps vals' bins' = 1 /\ simps vals' bins < 1.
Proof.
  intros HS SC He Hl Hn U Hm C Hi Hx. destruct (c_niter c) as [|l] eqn:En; [congruence|].
  destruct (pz_step_ok simps z (z + c_dz c 0 z) e (c_xe c 0 z) bins vals h HS He Hl Hn U Hm) as (b1 & k & P & Hk & L1 & U1 & S1 & _).
  set (e1 := sqrt (e ^ 2 + c_xe c 0 z ^ 2)). set (v1 := map (fun v => v / k) vals) in *. set (x0 := c_xe c 0 z) in *.
  assert (e <= e1) as He1 by apply sqrt_ge. assert (0 < e1) as Pe1 by lra.
  assert (positive_mass simps v1) as M1 by (apply mass_scale; assumption).
  destruct (from_pz simps c false l 1%nat (z + c_dz c 0 z) e1 b1 v1 (h * sqrt (x0 ^ 2 + e ^ 2) / e)) as
    (z' & e' & b' & v' & k' & E & Hk' & K0 & Hv & Lb & (h' & Hh & U') & _ & SS & _).
  - exact HS.
  - exact Pe1.
  - unfold v1. rewrite map_length, L1. exact Hl.
  - rewrite L1. exact Hn.
  - rewrite L1. exact U1.
  - exact M1.
  - assert (corr_from simps c false 0 (S l) (z, e, Some (bins, m_cell m i "pz")) = Ok (z', e', Some (b', v'))) as F.
    { cbn [corr_from]. unfold corr_step. cbv zeta. fold x0. rewrite C, P. cbn [bind]. exact E. }
    destruct (mem_total _ _ _ _ _ _ _ _ _ _ _ _ _ F) as [m' M]. exists m', z', e', b', v'. split; [exact M|].
    pose proof (mem_from _ _ _ _ _ _ _ _ _ _ _ _ _ M) as (F2 & _). assert (m_cell m' i "pz" = v') as P2 by congruence.
    split; [exact P2|]. assert (simps v' b' = 1) as One.
    { destruct l as [|l']; [|apply SS; discriminate]. cbn [corr_from] in E. injection E as _ _ <- <-. exact S1. }
    split; [exact One|]. rewrite L1 in U'. pose proof (SC v' _ _ _ _ _ Hn U U') as Q. rewrite One in Q.
    assert (h < h') as LT.
    { pose proof (ratio_gt e x0 He Hx) as G. destruct U as [Hh0 _]. unfold Rdiv in Hh, G. rewrite Rmult_assoc in Hh.
      apply (Rmult_lt_compat_l h) in G; [|exact Hh0]. lra. }
    destruct U as [Hh0 _]. apply (Rmult_lt_reg_r h'); lra.
Qed.
