From Coq Require Import Reals Lra.
From Verif.Base Require Import Py PyLemmas.
From Verif.Model Require Import BkgGen Solver Richness.
From Verif.Spec Require Import Solver Richness.
From Verif.Proofs Require Import BkgGen Solver.
Local Open Scope R_scope.

(** * theta_i *)
Lemma theta_bounds erf mag err mx lim : (forall x, -1 <= erf x <= 1) -> 0 <= theta_i erf mag err mx lim <= 1.
Proof.
  intros H. unfold theta_i. cbv zeta. destruct (Rltb lim mag); [lra|]. destruct (Rltb _ _); [|lra].
  match goal with |- context [erf ?x] => specialize (H x) end. lra.
Qed.
Lemma theta_faint erf mag err mx lim : lim < mag -> theta_i erf mag err mx lim = 0.
Proof. intros H. unfold theta_i. cbv zeta. apply Rltb_iff in H. rewrite H. reflexivity. Qed.
Lemma theta_bright erf mag err mx lim : 0 <= err -> 5 * err <= eff_lim mx lim - mag -> theta_i erf mag err mx lim = 1.
Proof.
  intros He H. unfold theta_i. cbv zeta.
  assert (Hl : Rltb lim mag = false).
  { apply Rltb_false. unfold eff_lim in H. pose proof (Rmin_r (Rmax mx 0) lim). lra. }
  apply Rltb_false in H. rewrite Hl, H. reflexivity.
Qed.
Lemma theta_mono erf m1 m2 err mx lim : (forall x, -1 <= erf x <= 1) -> (forall x y, x <= y -> erf x <= erf y) ->
  0 < err -> m1 <= m2 -> theta_i erf m2 err mx lim <= theta_i erf m1 err mx lim.
Proof.
  intros Hb Hm He H. destruct (Rlt_le_dec lim m2) as [h|h].
  { rewrite (theta_faint erf m2) by exact h. apply theta_bounds, Hb. }
  pose proof (theta_bounds erf m2 err mx lim Hb) as Hb2.
  unfold theta_i in *. cbv zeta in *.
  assert (E2 : Rltb lim m2 = false) by (apply Rltb_false; lra).
  assert (E1 : Rltb lim m1 = false) by (apply Rltb_false; lra). rewrite E1, E2 in *.
  destruct (Rltb (eff_lim mx lim - m1) (5 * err)) eqn:D1; [|lra].
  apply Rltb_iff in D1. assert (D2 : Rltb (eff_lim mx lim - m2) (5 * err) = true) by (apply Rltb_iff; lra).
  rewrite D2. assert (Hs : 0 < sqrt 2 * err) by (apply Rmult_lt_0_compat; [apply sqrt_lt_R0; lra|exact He]).
  assert (Hx : (eff_lim mx lim - m2) / (sqrt 2 * err) <= (eff_lim mx lim - m1) / (sqrt 2 * err)).
  { unfold Rdiv. apply Rmult_le_compat_r; [apply Rlt_le, Rinv_0_lt_compat, Hs|lra]. }
  specialize (Hm _ _ Hx). lra.
Qed.

(** * scatter *)
Lemma set_nth_length {A} (l : list A) i v : List.length (set_nth l i v) = List.length l.
Proof. revert i; induction l as [|x l IH]; intros [|i]; cbn; auto. Qed.
Lemma set_nth_same {A} (l : list A) i v : (i < List.length l)%nat -> nth_error (set_nth l i v) i = Some v.
Proof. revert i; induction l as [|x l IH]; intros [|i] H; cbn in *; try lia; [reflexivity|]. apply IH. lia. Qed.
Lemma set_nth_other {A} (l : list A) i j v : i <> j -> nth_error (set_nth l i v) j = nth_error l j.
Proof. revert i j; induction l as [|x l IH]; intros [|i] [|j] H; cbn; auto; try lia. Qed.

Lemma scatter_length {A} (iv : list (nat * A)) : forall l, List.length (scatter l iv) = List.length l.
Proof. induction iv as [|e iv IH]; intros l; [reflexivity|]. unfold scatter in *. cbn [fold_left]. rewrite IH. apply set_nth_length. Qed.
Lemma scatter_notin {A} (iv : list (nat * A)) j : ~ In j (map fst iv) -> forall l, nth_error (scatter l iv) j = nth_error l j.
Proof.
  induction iv as [|e iv IH]; intros H l; [reflexivity|]. unfold scatter in *. cbn [fold_left map] in *.
  rewrite IH by (intros h; apply H; right; exact h). apply set_nth_other. intros h. apply H. left; exact h.
Qed.
Lemma scatter_in {A} (iv : list (nat * A)) k j v : NoDup (map fst iv) -> nth_error iv k = Some (j, v) ->
  forall l, (j < List.length l)%nat -> nth_error (scatter l iv) j = Some v.
Proof.
  revert k; induction iv as [|e iv IH]; intros k Hnd Hk l Hj; [destruct k; discriminate|].
  cbn [map] in Hnd. inversion Hnd as [|? ? Hn Hd]; subst. unfold scatter in *. cbn [fold_left].
  destruct k as [|k].
  - injection Hk as ->. cbn [fst snd] in *. fold (scatter (set_nth l j v) iv). rewrite scatter_notin by exact Hn. apply set_nth_same, Hj.
  - apply (IH k Hd Hk). rewrite set_nth_length. exact Hj.
Qed.

(** sums of a projection after a scatter onto zeros *)
Lemma Rsum_set_nth {A} (h : A -> R) (l : list A) i x v : nth_error l i = Some x ->
  Rsum (map h (set_nth l i v)) = Rsum (map h l) - h x + h v.
Proof.
  revert i; induction l as [|y l IH]; intros [|i] H; cbn in *; try discriminate.
  - injection H as ->. ring.
  - rewrite (IH i H). ring.
Qed.
Lemma Rsum_scatter {A} (h : A -> R) (iv : list (nat * A)) : forall l, NoDup (map fst iv) ->
  (forall j, In j (map fst iv) -> exists x, nth_error l j = Some x /\ h x = 0) ->
  Rsum (map h (scatter l iv)) = Rsum (map h l) + Rsum (map (fun e => h (snd e)) iv).
Proof.
  induction iv as [|[i v] iv IH]; intros l Hnd Hz; [cbn; ring|].
  cbn [map fst] in Hnd. inversion Hnd as [|? ? Hn Hd]; subst.
  change (scatter l ((i, v) :: iv)) with (scatter (set_nth l i v) iv).
  destruct (Hz i (or_introl eq_refl)) as (x & Hx & Hx0).
  rewrite IH; [|exact Hd|].
  - rewrite (Rsum_set_nth h l i x v Hx), Hx0. cbn [map snd Rsum]. ring.
  - intros j Hj. destruct (Hz j (or_intror Hj)) as (y & Hy & Hy0). exists y. split; [|exact Hy0].
    rewrite set_nth_other; [exact Hy|]. intros ->. contradiction.
Qed.

Lemma lsum_from l : forall s, fold_left Rplus l s = s + Rsum l.
Proof. induction l as [|x l IH]; intros s; cbn; [ring|]. rewrite IH. ring. Qed.
Lemma lsum_Rsum l : lsum l = Rsum l.
Proof. unfold lsum. rewrite lsum_from. ring. Qed.

Lemma Rsum_nonneg l : (forall x, In x l -> 0 <= x) -> 0 <= Rsum l.
Proof. induction l as [|x l IH]; intros H; cbn; [lra|]. pose proof (H x (or_introl eq_refl)). specialize (IH (fun y Hy => H y (or_intror Hy))). lra. Qed.
Lemma Rsum_pos l x : (forall x, In x l -> 0 <= x) -> In x l -> 0 < x -> 0 < Rsum l.
Proof.
  induction l as [|y l IH]; intros H Hi Hx; [destruct Hi|]. cbn. pose proof (H y (or_introl eq_refl)).
  pose proof (Rsum_nonneg l (fun z Hz => H z (or_intror Hz))).
  destruct Hi as [->|Hi]; [lra|]. specialize (IH (fun z Hz => H z (or_intror Hz)) Hi Hx). lra.
Qed.

Lemma fold_Rmax_ge l : forall x, x <= fold_left Rmax l x /\ (forall y, In y l -> y <= fold_left Rmax l x).
Proof.
  induction l as [|a l IH]; intros x; cbn; [split; [lra|intros y []]|].
  destruct (IH (Rmax x a)) as [H1 H2]. pose proof (Rmax_l x a). pose proof (Rmax_r x a).
  split; [lra|]. intros y [<-|Hy]; [lra|apply H2, Hy].
Qed.
Lemma fold_Rmax_in l : forall x, fold_left Rmax l x = x \/ In (fold_left Rmax l x) l.
Proof.
  induction l as [|a l IH]; intros x; cbn; [left; reflexivity|].
  destruct (IH (Rmax x a)) as [->|H]; [|right; right; exact H]. unfold Rmax. destruct (Rle_dec x a); auto.
Qed.
Lemma lmax_spec l m : lmax l = Ok m -> In m l /\ forall y, In y l -> y <= m.
Proof.
  destruct l as [|x l]; [discriminate|]. intros [= <-]. destruct (fold_Rmax_ge l x) as [H1 H2]. split.
  - destruct (fold_Rmax_in l x) as [->|H]; [left; reflexivity|right; exact H].
  - intros y [<-|Hy]; [exact H1|apply H2, Hy].
Qed.

(** * finish *)
Definition good_row (e : senv) (f : filt) (s : sres) (x : nb) (a : garr) : nb :=
  set5 x (th_i e f x) (a_th a) (a_p a) (pcol_of f (o_lam s) (o_rlam s) x) (a_wt a).

Lemma sel_nth (nbs : list nb) idx k i : Forall (fun i => (i < List.length nbs)%nat) idx -> nth_error idx k = Some i ->
  nth_error (np_sel nbs idx) k = nth_error nbs i.
Proof.
  intros H Hk. rewrite np_sel_nth; [rewrite Hk; reflexivity|]. rewrite Forall_forall in H. exact H.
Qed.
Lemma sel_len (nbs : list nb) idx : Forall (fun i => (i < List.length nbs)%nat) idx -> List.length (np_sel nbs idx) = List.length idx.
Proof. intros H. apply np_sel_length. rewrite Forall_forall in H. exact H. Qed.

Lemma map_fst_combine {A B} (l : list A) (m : list B) : List.length l = List.length m -> map fst (combine l m) = l.
Proof. revert m; induction l as [|x l IH]; intros [|y m] H; cbn in *; try discriminate; [reflexivity|]. f_equal. apply IH. lia. Qed.
Lemma nth_combine {A B} (l : list A) (m : list B) k : nth_error (combine l m) k =
  match nth_error l k, nth_error m k with Some x, Some y => Some (x, y) | _, _ => None end.
Proof.
  revert m k; induction l as [|x l IH]; intros [|y m] [|k]; cbn; auto. destruct (nth_error l k); reflexivity.
Qed.

Definition rows (e : senv) (f : filt) (nbs : list nb) (idx : list nat) (s : sres) : list nb :=
  map (fun xa => good_row e f s (fst xa) (snd xa)) (combine (np_sel nbs idx) (o_arr s)).

Inductive finished (e : senv) (f : filt) (cerr : R) (nbs : list nb) (idx : list nat) (s : sres) : cres -> Prop :=
| fin_fail : (o_lam s < 0 \/ (lmax (map a_wt (o_arr s)) = Ok 0)) ->
    finished e f cerr nbs idx s (mkCRes (-1) (o_rlam s) (-1) (-1) (map (fun x => set5 x 0 0 0 0 0) nbs))
| fin_ok : 0 <= o_lam s -> forall m, lmax (map a_wt (o_arr s)) = Ok m -> m <> 0 ->
    forall err, err = sqrt ((1 - lsum (map (fun x => x * x) (map a_wt (o_arr s))) / lsum (map a_wt (o_arr s))) *
                (o_lam s / Rabs (o_lam s / lsum (map a_wt (o_arr s)))) *
                (Rabs (o_lam s / lsum (map a_wt (o_arr s))) * Rabs (o_lam s / lsum (map a_wt (o_arr s)))) + cerr * cerr) ->
    finished e f cerr nbs idx s
      (mkCRes (o_lam s) (o_rlam s) err (Rabs (o_lam s / lsum (map a_wt (o_arr s))))
              (scatter (map (fun x => set5 x 0 0 0 0 0) nbs) (combine idx (rows e f nbs idx s)))).

Lemma finish_inv e f cerr nbs idx s c : finish e f cerr nbs idx s = Ok c -> finished e f cerr nbs idx s c.
Proof.
  unfold finish. cbv zeta. destruct (Rltb (o_lam s) 0) eqn:E.
  - intros [= <-]. apply fin_fail. left. apply Rltb_iff, E.
  - apply Rltb_false in E. destruct (lmax _) as [m|] eqn:Em; [|discriminate]. cbn [bind].
    destruct (Req_EM_T m 0) as [->|Hm].
    + intros [= <-]. apply fin_fail. right. exact Em.
    + intros [= <-]. 
      replace (map (fun xa : nb * garr => let '(x, a) := xa in _) _) with (rows e f nbs idx s).
      * eapply fin_ok; eauto.
      * unfold rows. apply map_ext. intros [x a]. reflexivity.
Qed.
