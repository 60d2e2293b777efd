From Coq Require Import Reals Lra.
From Verif.Base Require Import Py PyLemmas.
From Verif.Model Require Import BkgGen Solver Richness ColFit.
From Verif.Spec Require Import Solver Richness ColFit.
From Verif.Proofs Require Import BkgGen Solver Richness.
From Verif.Props Require Import Solver.
From Coq Require Import Lia List. Import ListNotations.
Local Open Scope R_scope.

Lemma guse_iff o x : guse o x = true <-> candidate o x.
Proof. unfold guse, candidate. rewrite !andb_true_iff, !Rltb_iff. tauto. Qed.
Lemma in2sig_iff o cent x : in2sig o cent x = true <-> near_color o cent x.
Proof. apply Rltb_iff. Qed.

Lemma where_len (p : cnb -> bool) l : List.length (filter p l) = List.length (np_where p l).
Proof.
  unfold np_where. generalize O. induction l as [|x l IH]; intros k; cbn; [reflexivity|].
  destruct (p x); cbn; rewrite (IH (S k)); reflexivity.
Qed.
Lemma where_nodup (p : cnb -> bool) l : NoDup (np_where p l).
Proof.
  unfold np_where. assert (H : forall k, NoDup (where_from p k l) /\ forall i, In i (where_from p k l) -> (k <= i)%nat).
  { induction l as [|x l IH]; intros k; cbn; [split; [constructor|intros i []]|].
    destruct (IH (S k)) as [H1 H2]. destruct (p x).
    - split; [constructor; [intros h; specialize (H2 k h); lia|exact H1]|].
      intros i [<-|Hi]; [lia|]. specialize (H2 i Hi). lia.
    - split; [exact H1|]. intros i Hi. specialize (H2 i Hi). lia. }
  apply H.
Qed.
Lemma at_least_iff n p (P : cnb -> Prop) l : (forall x, p x = true <-> P x) -> (at_least n P l <-> (n <= List.length (filter p l))%nat).
Proof.
  intros Hp. rewrite where_len. split.
  - intros (idx & Hnd & <- & H). apply NoDup_incl_length; [exact Hnd|]. intros i Hi.
    destruct (H i Hi) as (x & Hx & HP). apply np_where_spec. exists x. split; [exact Hx|apply Hp, HP].
  - intros Hn. exists (firstn n (np_where p l)). split; [|split].
    + rewrite <- (firstn_skipn n (np_where p l)) in *. pose proof (where_nodup p l) as Hd.
      rewrite <- (firstn_skipn n (np_where p l)) in Hd. rewrite firstn_skipn. clear -Hd.
      revert Hd. generalize (firstn n (np_where p l)) (skipn n (np_where p l)). intros a b.
      induction a as [|x a IH]; intros H; [constructor|]. cbn in H. inversion H as [|? ? H1 H2]; subst.
      constructor; [intros h; apply H1, in_or_app; left; exact h|apply IH, H2].
    + apply firstn_length_le, Hn.
    + intros i Hi. assert (Hw : In i (np_where p l)) by (rewrite <- (firstn_skipn n (np_where p l)); apply in_or_app; left; exact Hi).
      apply np_where_spec in Hw. destruct Hw as (x & Hx & Hpx). exists x. split; [exact Hx|apply Hp, Hpx].
Qed.

Lemma argmin_from_spec l : forall i best v k x,
  argmin_from l i best v = k ->
  (k = best \/ (i <= k)%nat) /\
  (k = best -> x = v \/ True) /\
  (forall y, In y l -> exists w, (k = best /\ w = v \/ (exists j, k = (i + j)%nat /\ nth_error l j = Some w)) /\ w <= y /\ w <= v) /\
  (l = [] -> k = best) /\
  (exists w, (k = best /\ w = v \/ (exists j, k = (i + j)%nat /\ nth_error l j = Some w)) /\ w <= v /\ forall y, In y l -> w <= y).
Proof.
  induction l as [|a l IH]; intros i best v k x; cbn; intros H.
  - subst k. split; [auto|]. split; [auto|]. split; [intros y []|]. split; [auto|]. exists v. split; [auto|]. split; [lra|intros y []].
  - assert (Hex : exists w, (k = best /\ w = v \/ (exists j, k = (i + j)%nat /\ nth_error (a :: l) j = Some w)) /\ w <= v /\
                  forall y, In y (a :: l) -> w <= y).
    { destruct (Rltb a v) eqn:E.
      - apply Rltb_iff in E. destruct (IH (S i) i a k x H) as (_ & _ & _ & _ & w & Hw & Hwv & Hall).
        exists w. split; [|split; [lra|intros y [<-|Hy]; [exact Hwv|apply Hall, Hy]]].
        right. destruct Hw as [[-> ->]|(j & -> & Hj)]; [exists 0%nat; split; [lia|reflexivity]|].
        exists (S j). split; [lia|exact Hj].
      - apply Rltb_false in E. destruct (IH (S i) best v k x H) as (_ & _ & _ & _ & w & Hw & Hwv & Hall).
        exists w. split; [|split; [exact Hwv|intros y [<-|Hy]; [lra|apply Hall, Hy]]].
        destruct Hw as [Hw|(j & -> & Hj)]; [left; exact Hw|right; exists (S j); split; [lia|exact Hj]]. }
    split. { destruct Hex as (w & [[-> _]|(j & -> & _)] & _); [auto|right; lia]. }
    split; [auto|]. split; [|split; [discriminate|exact Hex]].
    intros y Hy. destruct Hex as (w & Hw & Hwv & Hall). exists w. split; [exact Hw|]. split; [apply Hall, Hy|exact Hwv].
Qed.
Lemma argminR_spec l i : argminR l = Ok i -> exists v, nth_error l i = Some v /\ forall y, In y l -> v <= y.
Proof.
  destruct l as [|a l]; [discriminate|]. intros [= H].
  destruct (argmin_from_spec l 1 0 a i 0 H) as (_ & _ & _ & _ & w & Hw & Hwv & Hall).
  exists w. split; [|intros y [<-|Hy]; [exact Hwv|apply Hall, Hy]].
  destruct Hw as [[-> ->]|(j & -> & Hj)]; [reflexivity|exact Hj].
Qed.

(** ** the three outcomes *)
Lemma fit_cases fuel tol e o c r : calc_richness_fit fuel tol e o c = Some r ->
  (exists s, (s = SVal (-1) \/ s = k_scale c) /\ r = Ok (-10, set_scale c s)) \/
  (exists x, r = Err x /\ k_nbs c = []) \/
  exists f s, solve fuel tol e (map (fun x => gal_of e f (cn x)) (k_nbs c)) = Some s /\ r = fit_end o e f c s /\
    exists good, f = o_fit o good.
Proof.
  unfold calc_richness_fit. cbv zeta. destruct (Nat.ltb _ _).
  { intros [= <-]. left. exists (SVal (-1)). split; [auto|reflexivity]. }
  assert (Hrest : forall cent, (if Nat.ltb (List.length (filter (in2sig o cent) (filter (guse o) (k_nbs c)))) (o_mingal o)
     then Some (Ok (-10, set_scale c (SVal (-1))))
     else option_map (fit_end o e (o_fit o (filter (in2sig o cent) (filter (guse o) (k_nbs c)))) c)
            (solve fuel tol e (map (fun x => gal_of e (o_fit o (filter (in2sig o cent) (filter (guse o) (k_nbs c)))) (cn x)) (k_nbs c)))) = Some r ->
   (exists s, (s = SVal (-1) \/ s = k_scale c) /\ r = Ok (-10, set_scale c s)) \/
   (exists x, r = Err x /\ k_nbs c = []) \/
   exists f s, solve fuel tol e (map (fun x => gal_of e f (cn x)) (k_nbs c)) = Some s /\ r = fit_end o e f c s /\
     exists good, f = o_fit o good).
  { intros cent. destruct (Nat.ltb _ _).
    - intros [= <-]. left. exists (SVal (-1)). split; [auto|reflexivity].
    - set (f := o_fit o _). destruct (solve _ _ _ _) as [s|] eqn:E; [|discriminate]. intros [= <-]. right; right.
      exists f, s. split; [exact E|]. split; [reflexivity|]. unfold f. eexists; reflexivity. }
  destruct (o_cent o) as [cent|]; [apply Hrest|].
  destruct (argminR _) as [i|x] eqn:Ea; cbn [bind].
  - pose proof (argminR_spec _ _ Ea) as (v & Hv & _). rewrite nth_error_map in Hv.
    destruct (nth_error (k_nbs c) i) as [y|]; [|discriminate].
    destruct (guse o y); [apply Hrest|]. intros [= <-]. left. exists (k_scale c). split; [auto|].
    destruct c; reflexivity.
  - intros [= <-]. right; left. exists x. split; [reflexivity|]. destruct (k_nbs c); [reflexivity|discriminate].
Qed.

Lemma zero_rows l : forall x, In x (map (fun x => set_row x 0 0 0 0 0) l) -> n_pmem (cn x) = 0.
Proof. intros x H. apply in_map_iff in H. destruct H as (y & <- & _). reflexivity. Qed.
Lemma r_rows (e : senv) f (l : list cnb) (arr : list garr) lam rlam : List.length arr = List.length l ->
  map (fun x => n_r (cn x)) (map (fun xa => let '(x, a) := xa in
    set_row x (th_i e f (cn x)) (a_th a) (a_p a) (pcol_fit f lam rlam (cn x)) (a_wt a)) (combine l arr)) = map (fun x => n_r (cn x)) l.
Proof. revert arr. induction l as [|x l IH]; intros [|a arr] H; cbn in *; try discriminate; [reflexivity|]. f_equal. apply IH. lia. Qed.
Lemma pmem_rows (e : senv) f (l : list cnb) (arr : list garr) lam rlam : List.length arr = List.length l ->
  map (fun x => n_pmem (cn x)) (map (fun xa => let '(x, a) := xa in
    set_row x (th_i e f (cn x)) (a_th a) (a_p a) (pcol_fit f lam rlam (cn x)) (a_wt a)) (combine l arr)) = map a_wt arr.
Proof. revert arr. induction l as [|x l IH]; intros [|a arr] H; cbn in *; try discriminate; [reflexivity|]. f_equal. apply IH. lia. Qed.

Lemma gals_ok e f l : erf_ok e -> Forall (phys f) l -> Forall gal_ok (map (fun x => gal_of e f (cn x)) l).
Proof.
  intros He H. apply Forall_forall. intros g Hg. apply in_map_iff in Hg as (x & <- & Hx). rewrite Forall_forall in H.
  destruct (H x Hx) as (Hp & _ & Hu & _ & Hb). unfold gal_ok, gal_of. cbn [g_u g_w g_b]. split; [exact Hu|]. split; [|exact Hb].
  apply Rmult_le_pos; [apply theta_bounds, He|lra].
Qed.
