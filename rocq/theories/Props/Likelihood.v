(** C54: the likelihood of a cluster. *)
From Coq Require Import Permutation Reals Lra.
From Verif.Base Require Import Py PyLemmas.
From Verif.Model Require Import BkgGen Likelihood.
From Verif.Spec Require Import Likelihood.
From Verif.Proofs Require Import BkgGen Likelihood.
From Coq Require Import Lra Lia List.
Import ListNotations.
Local Open Scope R_scope.

(** A cluster has a likelihood exactly when its richness reaches the minimum and at least three neighbours
    outside the smallest radius have a positive membership probability. *)
Theorem C54_kept minlambda lam l near far : split_closest l near far ->
  (lnlamlike minlambda lam l <> None <->
   minlambda <= lam /\ (3 <= length (filter (fun n => Rltb 0 (b_p n)) far))%nat).
Proof.
  intros S. rewrite <- (Permutation_length (incut_far l near far S)). unfold lnlamlike.
  destruct (Rltb lam minlambda) eqn:E1; cbn [orb].
  - apply Rltb_iff in E1. split; [congruence|]. intros [H _]. lra.
  - assert (L : minlambda <= lam). { destruct (Rle_dec minlambda lam); [assumption|]. assert (Hl : lam < minlambda) by lra. apply Rltb_iff in Hl. congruence. }
    destruct (length (incut l) <? 3)%nat eqn:E2; [apply Nat.ltb_lt in E2|apply Nat.ltb_ge in E2].
    + split; [congruence|]. intros [_ H]. lia.
    + split; [auto|]. intros _. discriminate.
Qed.
Print Assumptions C54_kept.

(** The value: the neighbours at the smallest radius contribute minus their probability, every other one
    contributes -p - log(1-p); the richness and its scale cancel. *)
Theorem C54_value minlambda lam l near far x :
  0 < minlambda -> split_closest l near far -> (forall n, In n l -> 0 <= b_p n) -> (forall n, In n far -> b_p n < 1) ->
  lnlamlike minlambda lam l = Some x ->
  x = Fin (- total (fun p => p) l - total (fun p => ln (1 - p)) far).
Proof.
  intros Hm S P0 P1. unfold lnlamlike. destruct (Rltb lam minlambda) eqn:E1; [discriminate|]. cbn [orb].
  destruct (length (incut l) <? 3)%nat eqn:E2; [discriminate|]. apply Nat.ltb_ge in E2. intros [= <-].
  assert (L : minlambda <= lam). { destruct (Rle_dec minlambda lam); [assumption|]. assert (Hl : lam < minlambda) by lra. apply Rltb_iff in Hl. congruence. }
  rewrite scale_cancel; [|lra|apply (psum_pos_filter (fun n => Rltb (minr l) (b_r n))); [exact P0|unfold incut in E2; lia]].
  pose proof (incut_far l near far S) as P.
  assert (Pf : forall n, In n far -> In n l). { intros n Hn. eapply Permutation_in; [apply Permutation_sym; apply S|]. apply in_or_app. auto. }
  rewrite xsum_fin.
  - cbn [xadd]. f_equal. rewrite psum_total, (total_perm _ _ _ P), total_filter; [|exact ln_zero|intros n Hn; apply P0; auto].
    assert (G : forall l, total (fun p => - ln (1 - p)) l = - total (fun p => ln (1 - p)) l) by (induction l0 as [|y l0 IH]; cbn; lra).
    rewrite G. lra.
  - intros n Hn. assert (Hf : In n (filter (fun n => Rltb 0 (b_p n)) far)) by (eapply Permutation_in; [exact P|exact Hn]).
    apply filter_In in Hf. apply P1. apply Hf.
Qed.
Print Assumptions C54_value.

(** The bound: more than minus the probability of the neighbours at the smallest radius. *)
Theorem C54_bound minlambda lam l near far x :
  0 < minlambda -> split_closest l near far -> (forall n, In n l -> 0 <= b_p n) -> (forall n, In n far -> b_p n < 1) ->
  lnlamlike minlambda lam l = Some x ->
  exists v, x = Fin v /\ - total (fun p => p) near < v.
Proof.
  intros Hm S P0 P1 H. pose proof (C54_value minlambda lam l near far x Hm S P0 P1 H) as V.
  eexists; split; [exact V|]. rewrite (total_perm _ _ _ (proj1 S)), total_app.
  assert (Pf : forall n, In n far -> 0 <= b_p n). { intros n Hn. apply P0. eapply Permutation_in; [apply Permutation_sym; apply S|]. apply in_or_app. auto. }
  assert (K : lnlamlike minlambda lam l <> None) by congruence.
  apply (C54_kept minlambda lam l near far S) in K. destruct K as [_ K].
  destruct (filter (fun n => Rltb 0 (b_p n)) far) as [|n t] eqn:E; [cbn in K; lia|].
  assert (Hn : In n (filter (fun n => Rltb 0 (b_p n)) far)) by (rewrite E; left; reflexivity). apply filter_In in Hn. destruct Hn as [Hn Hp]. apply Rltb_iff in Hp.
  assert (G : 0 < total (fun p => - ln (1 - p) - p) far).
  { apply (total_pos _ _ n); [|exact Hn|]. - intros m Hf. pose proof (ln_bound (b_p m) (P1 m Hf)). lra. - pose proof (ln_strict (b_p n) Hp (P1 n Hn)). lra. }
  assert (D : forall l, total (fun p => - ln (1 - p) - p) l = - total (fun p => ln (1 - p)) l - total (fun p => p) l) by (induction l0 as [|y l0 IH]; cbn; lra).
  rewrite D in G. lra.
Qed.
Print Assumptions C54_bound.

(** With a single neighbour at the smallest radius (the usual central galaxy) the likelihood is above -1. *)
Theorem C54_one_central minlambda lam l c far x :
  0 < minlambda -> split_closest l [c] far -> (forall n, In n l -> 0 <= b_p n <= 1) -> (forall n, In n far -> b_p n < 1) ->
  lnlamlike minlambda lam l = Some x -> exists v, x = Fin v /\ -1 < v.
Proof.
  intros Hm S P0 P1 H. destruct (C54_bound minlambda lam l [c] far x Hm S (fun n Hn => proj1 (P0 n Hn)) P1 H) as (v & E & B).
  exists v. split; [exact E|]. cbn in B. assert (Hc : In c l) by (eapply Permutation_in; [apply Permutation_sym; apply S|left; reflexivity]).
  pose proof (P0 c Hc). lra.
Qed.
Print Assumptions C54_one_central.

(** Adding membership to a neighbour that is not the central raises the likelihood. *)
Theorem C54_monotone minlambda lam lam' l l' near far far' v v' :
  0 < minlambda -> split_closest l near far -> split_closest l' near far' ->
  (forall n, In n l -> 0 <= b_p n) -> (forall n, In n l' -> 0 <= b_p n) ->
  (forall n, In n far' -> b_p n < 1) ->
  Forall2 (fun n n' => b_p n <= b_p n') far far' ->
  lnlamlike minlambda lam l = Some (Fin v) -> lnlamlike minlambda lam' l' = Some (Fin v') -> v <= v'.
Proof.
  intros Hm S S' P0 P0' P1' F H H'.
  assert (P1 : forall n, In n far -> b_p n < 1).
  { clear - F P1'. induction F as [|n n' far far' Hn F IH]; [intros n []|]. intros m [->|Hm].
    - pose proof (P1' n' (or_introl eq_refl)). lra. - apply IH; [intros k Hk; apply P1'; right; exact Hk|exact Hm]. }
  pose proof (C54_value _ _ _ _ _ _ Hm S P0 P1 H) as V. pose proof (C54_value _ _ _ _ _ _ Hm S' P0' P1' H') as V'.
  injection V as ->. injection V' as ->.
  rewrite (total_perm _ _ _ (proj1 S)), (total_perm _ _ _ (proj1 S')), !total_app.
  assert (Q0 : forall n, In n far -> 0 <= b_p n). { intros n Hn. apply P0. eapply Permutation_in; [apply Permutation_sym; apply S|]. apply in_or_app. auto. }
  enough (total (fun p => p) far' - total (fun p => p) far <= total (fun p => ln (1 - p)) far - total (fun p => ln (1 - p)) far') by lra.
  clear - F P1 P1' Q0. induction F as [|n n' far far' Hn F IH]; cbn; [lra|].
  specialize (IH (fun m Hm => P1' m (or_intror Hm)) (fun m Hm => P1 m (or_intror Hm)) (fun m Hm => Q0 m (or_intror Hm))).
  pose proof (P1' n' (or_introl eq_refl)) as B'. pose proof (P1 n (or_introl eq_refl)) as B. pose proof (Q0 n (or_introl eq_refl)) as B0.
  (* -log((1-p')/(1-p)) >= 1 - (1-p')/(1-p) = (p'-p)/(1-p) >= p'-p *)
  set (q := 1 - (1 - b_p n') / (1 - b_p n)).
  assert (Q1 : q < 1). { unfold q. assert (0 < (1 - b_p n') / (1 - b_p n)) by (apply Rdiv_lt_0_compat; lra). lra. }
  pose proof (ln_bound q Q1) as Lq. replace (1 - q) with ((1 - b_p n') / (1 - b_p n)) in Lq by (unfold q; lra).
  unfold Rdiv in Lq. rewrite ln_mult in Lq; [|lra|apply Rinv_0_lt_compat; lra]. rewrite ln_Rinv in Lq by lra.
  assert (Gq : b_p n' - b_p n <= q).
  { unfold q. replace (1 - (1 - b_p n') / (1 - b_p n)) with ((b_p n' - b_p n) * / (1 - b_p n)) by (field; lra).
    rewrite <- (Rmult_1_r (b_p n' - b_p n)) at 1. apply Rmult_le_compat_l; [lra|]. rewrite <- Rinv_1 at 1. apply Rinv_le_contravar; lra. }
  lra.
Qed.
Print Assumptions C54_monotone.

(** A membership probability of exactly one outside the smallest radius makes the likelihood infinite. *)
Theorem C54_infinite minlambda lam l near far x :
  0 < minlambda -> split_closest l near far -> (forall n, In n l -> 0 <= b_p n <= 1) -> (exists n, In n far /\ b_p n = 1) ->
  lnlamlike minlambda lam l = Some x -> x = Inf.
Proof.
  intros Hm S P0 (n & Hn & E) H. unfold lnlamlike in H. destruct (Rltb lam minlambda || _); [discriminate|]. injection H as <-.
  pose proof (incut_far l near far S) as P. rewrite xsum_no_nan; [reflexivity| |].
  - intros m Hf. unfold incut in Hf. apply filter_In in Hf. apply P0. apply Hf.
  - exists n. split; [|exact E]. eapply Permutation_in; [apply Permutation_sym; exact P|]. apply filter_In. split; [exact Hn|]. apply Rltb_iff. lra.
Qed.
Print Assumptions C54_infinite.

(** RunZScan leaves certain members and those at the centre out; the result is always a number, above minus
    the sum of what is left out. *)
Theorem C54_zscan lam l : 0 < lam -> (forall n, In n l -> 0 <= b_p n <= 1) ->
  exists v, zscan_like lam l = Fin v /\
    (v = -1 /\ (forall n, In n l -> b_p n = 0 \/ b_p n = 1 \/ b_r n <= 1 / 1000000) \/
     (exists n, In n l /\ 0 < b_p n < 1 /\ 1 / 1000000 < b_r n) /\
     - total (fun p => p) (filter (fun n => negb (Rltb 0 (b_p n) && Rltb (1 / 1000000) (b_r n) && Rltb (b_p n) 1)) l) < v).
Proof.
  intros Hl P. unfold zscan_like. destruct (0 <? length (zcut l))%nat eqn:E; [apply Nat.ltb_lt in E|apply Nat.ltb_ge in E].
  - assert (G : exists n, In n (zcut l)) by (destruct (zcut l) as [|n t]; [cbn in E; lia|exists n; left; reflexivity]).
    destruct G as (n & Gn).
    assert (Hz : forall m, In m (zcut l) -> In m l /\ 0 < b_p m /\ b_p m < 1 /\ 1 / 1000000 < b_r m).
    { intros m Hm. unfold zcut in Hm. apply filter_In in Hm. destruct Hm as [Hm K]. apply Bool.andb_true_iff in K. destruct K as [K K3].
      apply Bool.andb_true_iff in K. destruct K as [K1 K2]. apply Rltb_iff in K1, K2, K3. auto. }
    rewrite xsum_fin by (intros m Hm; apply Hz; exact Hm).
    rewrite scale_cancel; [|exact Hl|].
    2:{ rewrite psum_total. apply (total_pos _ _ n); [intros m Hm; apply P; exact Hm|apply Hz; exact Gn|apply Hz; exact Gn]. }
    eexists; split; [reflexivity|]. right. split; [exists n; destruct (Hz n Gn) as (A & B & C & D); auto|].
    assert (D : forall (f : nbr -> bool) l, total (fun p => p) l = total (fun p => p) (filter f l) + total (fun p => p) (filter (fun n => negb (f n)) l)).
    { clear. induction l as [|x l IH]; cbn; [lra|]. destruct (f x); cbn; lra. }
    rewrite psum_total. rewrite (D (fun n => Rltb 0 (b_p n) && Rltb (1 / 1000000) (b_r n) && Rltb (b_p n) 1) l). fold (zcut l).
    assert (G : 0 < total (fun p => - ln (1 - p) - p) (zcut l)).
    { apply (total_pos _ _ n); [|exact Gn|]. - intros m Hm. destruct (Hz m Hm) as (_ & _ & B & _). pose proof (ln_bound _ B). lra.
      - destruct (Hz n Gn) as (_ & A & B & _). pose proof (ln_strict _ A B). lra. }
    assert (D2 : forall l, total (fun p => - ln (1 - p) - p) l = total (fun p => - ln (1 - p)) l - total (fun p => p) l) by (clear; induction l as [|y l IH]; cbn; lra).
    rewrite D2 in G. lra.
  - exists (-1). split; [reflexivity|]. left. split; [reflexivity|]. intros n Hn.
    assert (Z : zcut l = []) by (destruct (zcut l); [reflexivity|cbn in E; lia]).
    destruct (Rltb 0 (b_p n)) eqn:K1; [|left; destruct (P n Hn) as [[A|A] _]; [apply (Rltb_iff 0 (b_p n)) in A; congruence|auto]].
    destruct (Rltb (b_p n) 1) eqn:K2; [|right; left; destruct (P n Hn) as [_ [A|A]]; [apply (Rltb_iff (b_p n) 1) in A; congruence|auto]].
    right; right. destruct (Rle_dec (b_r n) (1 / 1000000)); [assumption|]. exfalso. assert (K3 : 1 / 1000000 < b_r n) by lra. apply Rltb_iff in K3.
    assert (In n (zcut l)) by (unfold zcut; apply filter_In; rewrite K1, K2, K3; auto). rewrite Z in H. destruct H.
Qed.
Print Assumptions C54_zscan.

(** A cluster with four neighbours meets the hypotheses. *)
Definition ex_l := [mk_nbr 0 (9 / 10); mk_nbr 1 (1 / 2); mk_nbr 2 (1 / 2); mk_nbr 3 (1 / 4)].
Example C54_example : split_closest ex_l [mk_nbr 0 (9 / 10)] [mk_nbr 1 (1 / 2); mk_nbr 2 (1 / 2); mk_nbr 3 (1 / 4)] /\
  (forall n, In n ex_l -> 0 <= b_p n <= 1) /\ (exists v, lnlamlike 1 2 ex_l = Some (Fin v) /\ -1 < v).
Proof.
  assert (S : split_closest ex_l [mk_nbr 0 (9 / 10)] [mk_nbr 1 (1 / 2); mk_nbr 2 (1 / 2); mk_nbr 3 (1 / 4)]).
  { split; [apply Permutation_refl|]. split.
    - intros n [<-|[]] m Hm. unfold ex_l in Hm. cbn in Hm. repeat destruct Hm as [<-|Hm]; cbn; try lra.
    - intros n Hn H. specialize (H (mk_nbr 0 (9 / 10)) (or_introl eq_refl)). cbn in Hn. repeat destruct Hn as [<-|Hn]; cbn in H; try lra. }
  assert (B : forall n, In n ex_l -> 0 <= b_p n <= 1) by (intros n Hn; unfold ex_l in Hn; cbn in Hn; repeat destruct Hn as [<-|Hn]; cbn; try lra).
  split; [exact S|]. split; [exact B|].
  assert (K : lnlamlike 1 2 ex_l <> None).
  { apply (C54_kept 1 2 _ _ _ S). split; [lra|]. cbn. rewrite !(proj2 (Rltb_iff _ _)) by lra. cbn. lia. }
  destruct (lnlamlike 1 2 ex_l) as [x|] eqn:E; [|congruence].
  assert (P1 : forall n, In n [mk_nbr 1 (1 / 2); mk_nbr 2 (1 / 2); mk_nbr 3 (1 / 4)] -> b_p n < 1) by (intros n Hn; cbn in Hn; repeat destruct Hn as [<-|Hn]; cbn; try lra).
  assert (P0 : forall n, In n ex_l -> 0 <= b_p n) by (intros n Hn; apply B; exact Hn).
  destruct (C54_one_central 1 2 _ _ _ x ltac:(lra) S B P1 E) as (v & -> & H). exists v. auto.
Qed.
