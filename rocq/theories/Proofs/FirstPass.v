From Coq Require Import QArith Qabs.
From Verif.Base Require Import Py PyLemmas.
From Verif.Model Require Import FirstPass.
From Verif.Spec Require Import FirstPass.
From Coq Require Import Lqa Lia List. Import ListNotations.
Local Open Scope nat_scope.

Lemma cuse_iff f z c : cuse f z c = true <-> usable f z c.
Proof.
  unfold cuse, usable, Qlt_bool. rewrite !andb_true_iff, negb_true_iff, !Qle_bool_iff.
  split; intros H.
  - destruct H as [[H1 H2] H3]. split; [exact H1|]. split; [exact H2|].
    apply Qnot_le_lt. intros h. apply Qle_bool_iff in h. congruence.
  - destruct H as (H1 & H2 & H3). split; [split; assumption|].
    destruct (Qle_bool (fc_chisqmax f) c) eqn:E; [|reflexivity]. apply Qle_bool_iff in E. lra.
Qed.
Lemma Qltb_iff x y : Qlt_bool x y = true <-> (x < y)%Q.
Proof.
  unfold Qlt_bool. rewrite negb_true_iff. split; intros H.
  - apply Qnot_le_lt. intros h. apply Qle_bool_iff in h. congruence.
  - destruct (Qle_bool y x) eqn:E; [|reflexivity]. apply Qle_bool_iff in E. lra.
Qed.
Lemma Qltb_not x y : Qlt_bool x y = false <-> (y <= x)%Q.
Proof.
  unfold Qlt_bool. rewrite negb_false_iff. apply Qle_bool_iff.
Qed.

Lemma keeps_filter {A} (p : A -> bool) (P : A -> Prop) l :
  (forall x, p x = true <-> P x) -> keeps P l (filter p l).
Proof.
  intros H. induction l as [|x l IH]; cbn; [constructor|].
  destruct (p x) eqn:E; constructor; auto; [apply H, E|]. intros h. apply H in h. congruence.
Qed.
Lemma keeps_none {A} (P : A -> Prop) l : keeps P l [] -> forall x, In x l -> ~ P x.
Proof.
  intros H. remember (@nil A) as l' eqn:E. induction H; intros y Hy; [destruct Hy|discriminate|].
  destruct Hy as [<-|Hy]; [assumption|apply IHkeeps; assumption].
Qed.
Lemma keeps_fun {A} (P : A -> Prop) l l1 : keeps P l l1 -> forall l2, keeps P l l2 -> l1 = l2.
Proof.
  induction 1; intros l2 H2; inversion H2; subst; try contradiction; try reflexivity; [f_equal|]; auto.
Qed.

(** the filters commute with the map that makes the rows *)
Lemma filter_map {A B} (h : A -> B) (p : B -> bool) l : filter p (map h l) = map h (filter (fun x => p (h x)) l).
Proof. induction l as [|x l IH]; cbn; [reflexivity|]. destruct (p (h x)); cbn; rewrite IH; reflexivity. Qed.
Lemma filter_filter {A} (p q : A -> bool) l : filter p (filter q l) = filter (fun x => q x && p x) l.
Proof.
  induction l as [|x l IH]; cbn; [reflexivity|]. destruct (q x); cbn; [destruct (p x); rewrite IH; reflexivity|exact IH].
Qed.

Lemma from_seeds_eq f inmask seeds :
  let kept := filter (fun s => cuse f (sd_zred s) (sd_chisq s) && (negb (fc_clean f) || inmask (sd_ra s) (sd_dec s))) seeds in
  from_seeds f inmask seeds = match kept with [] => None | _ => Some (mkCat (Some (fc_r0 f)) (Some (fc_beta f)) (map (row_of_seed f) kept)) end.
Proof.
  cbv zeta. unfold from_seeds.
  assert (E1 : filter (fun r => cuse f (c_zred r) (c_chisq r)) (map (row_of_seed f) seeds) =
               map (row_of_seed f) (filter (fun s => cuse f (sd_zred s) (sd_chisq s)) seeds)).
  { rewrite filter_map. reflexivity. }
  rewrite E1. rewrite map_length.
  destruct (fc_clean f); cbn [negb orb].
  - rewrite filter_map. cbn [c_ra c_dec row_of_seed]. rewrite map_length, filter_filter.
    destruct (filter (fun s => cuse f (sd_zred s) (sd_chisq s)) seeds) as [|x t] eqn:E.
    + cbn [length Nat.eqb].
      assert (H : forall l, filter (fun s => cuse f (sd_zred s) (sd_chisq s)) l = [] ->
        filter (fun s => cuse f (sd_zred s) (sd_chisq s) && inmask (sd_ra s) (sd_dec s)) l = []).
      { induction l as [|y l IH]; cbn; [reflexivity|]. destruct (cuse f _ _); cbn; [discriminate|exact IH]. }
      rewrite (H _ E). reflexivity.
    + cbn [length Nat.eqb].
      destruct (filter (fun x0 : seed => cuse f (sd_zred x0) (sd_chisq x0) && inmask (sd_ra x0) (sd_dec x0)) seeds); reflexivity.
  - rewrite (filter_ext (fun s => cuse f (sd_zred s) (sd_chisq s) && true) (fun s => cuse f (sd_zred s) (sd_chisq s)))
      by (intros; apply andb_true_r).
    destruct (filter (fun s => cuse f (sd_zred s) (sd_chisq s)) seeds); reflexivity.
Qed.

(** selecting by positions is filtering *)
Lemma where_sel {A} (p : A -> bool) l : forall pre, np_sel (pre ++ l) (where_from p (length pre) l) = filter p l.
Proof.
  induction l as [|x l IH]; intros pre; cbn; [reflexivity|].
  specialize (IH (pre ++ [x])). rewrite app_length in IH. cbn [length] in IH. rewrite Nat.add_1_r, <- app_assoc in IH. cbn in IH.
  destruct (p x); [|exact IH]. cbn [np_sel]. rewrite nth_error_app2, Nat.sub_diag by lia. cbn. rewrite IH. reflexivity.
Qed.
Lemma np_where_sel {A} (p : A -> bool) (l : list A) : np_sel l (np_where p l) = filter p l.
Proof. apply (where_sel p l []). Qed.
Lemma np_where_length {A} (p : A -> bool) (l : list A) i : length (where_from p i l) = length (filter p l).
Proof. revert i. induction l as [|x l IH]; intros i; cbn; [reflexivity|]. destruct (p x); cbn; rewrite IH; reflexivity. Qed.
Lemma where_bound {A} (p : A -> bool) (l : list A) : forall i k, In k (where_from p i l) -> k < i + length l.
Proof.
  induction l as [|x l IH]; cbn; intros i k; [tauto|]. destruct (p x); cbn; [intros [<-|H]; [lia|]|intros H]; apply IH in H; lia.
Qed.
Lemma np_sel_sel {A} (l : list A) (idx js : list nat) : (forall i, In i idx -> i < length l) ->
  np_sel l (np_sel idx js) = np_sel (np_sel l idx) js.
Proof.
  intros Hb.
  assert (E : forall j, nth_error (np_sel l idx) j = match nth_error idx j with Some i => nth_error l i | None => None end).
  { clear js. induction idx as [|i idx IH]; intros j; cbn; [destruct j; reflexivity|].
    destruct (nth_error l i) as [x|] eqn:Ei.
    - destruct j; cbn; [symmetry; exact Ei|]. apply IH. intros; apply Hb; right; assumption.
    - exfalso. apply nth_error_None in Ei. specialize (Hb i (or_introl eq_refl)). lia. }
  induction js as [|j js IH]; cbn; [reflexivity|]. rewrite E.
  destruct (nth_error idx j) as [i|] eqn:Ej; [|exact IH]. cbn. destruct (nth_error l i); [rewrite IH; reflexivity|exact IH].
Qed.
Lemma from_gals_eq f mstar dm gals :
  let kept := filter (fun g => cuse f (g_zred g) (g_chisq g) && Qlt_bool (g_refmag g) (mstar (g_zred g) - dm)) gals in
  from_gals f mstar dm gals = match kept with [] => None | _ => Some (mkCat None None (map row_of_gal kept)) end.
Proof.
  cbv zeta. unfold from_gals.
  assert (E : np_sel gals (np_sel (np_where (fun g => cuse f (g_zred g) (g_chisq g)) gals)
     (np_where (fun g => Qlt_bool (g_refmag g) (mstar (g_zred g) - dm)) (np_sel gals (np_where (fun g => cuse f (g_zred g) (g_chisq g)) gals)))) =
     filter (fun g => cuse f (g_zred g) (g_chisq g) && Qlt_bool (g_refmag g) (mstar (g_zred g) - dm)) gals).
  { rewrite np_sel_sel; [rewrite np_where_sel, np_where_sel, filter_filter; reflexivity|].
    intros i Hi. apply where_bound in Hi. exact Hi. }
  rewrite E. rewrite np_where_sel. unfold np_where at 1. rewrite np_where_length.
  destruct (filter (fun g => cuse f (g_zred g) (g_chisq g)) gals) as [|x t] eqn:E2.
  - cbn [length Nat.eqb].
    assert (H : forall l q, filter (fun s => cuse f (g_zred s) (g_chisq s)) l = [] ->
        filter (fun s => cuse f (g_zred s) (g_chisq s) && q s) l = []).
    { induction l as [|y l IH]; cbn; intros q; [reflexivity|]. destruct (cuse f _ _); cbn; [discriminate|apply IH]. }
    rewrite (H _ _ E2). reflexivity.
  - cbn [length Nat.eqb]. unfold np_where. rewrite np_where_length, <- E2, filter_filter.
    destruct (filter _ gals); reflexivity.
Qed.

Lemma set_redshift_next f m : fc_keepz f = false -> (0 <= m_z m)%Q ->
  exists z, set_redshift (m_z m) = Ok z /\ z = next_at f m.
Proof.
  intros Hk H0. unfold set_redshift. destruct (Qlt_bool (m_z m) 0) eqn:E; [apply Qltb_iff in E; lra|].
  eexists. split; [reflexivity|]. unfold next_at. rewrite Hk. unfold Qmax2.
  destruct (Qlt_le_dec (m_z m) (1#100)) as [h|h].
  - destruct (Qle_bool (1#100) (m_z m)) eqn:E2; [apply Qle_bool_iff in E2; lra|reflexivity].
  - destruct (Qle_bool (1#100) (m_z m)) eqn:E2; [reflexivity|]. apply Qle_bool_iff in h. congruence.
Qed.

Definition meas_at (o : oracle) (k : nat) (z : Q) : meas :=
  mkM z (fst (o_rich o k z)) (snd (o_rich o k z)) (fst (fst (o_zl o k z))) (snd (fst (o_zl o k z))) (snd (o_zl o k z)).
Lemma measured_at o k z : measured o k (meas_at o k z).
Proof. unfold measured, meas_at; cbn. destruct (o_rich o k z), (o_zl o k z) as [[? ?] ?]. split; reflexivity. Qed.
Lemma measured_eq o k m : measured o k m -> m = meas_at o k (m_at m).
Proof.
  destruct m as [a l s z e n]. unfold measured, meas_at; cbn. intros [-> ->]. reflexivity.
Qed.

(** the loop, when the redshift range is physical *)
Lemma iter_spec f o : (0 <= fc_zlo f)%Q -> forall todo k s,
  exists s' bad, iter f o k todo s = Ok (s', bad) /\
  ((bad = false /\ exists ms, length ms = todo /\ course f o k (f_z s) ms (f_z s') /\ Forall (acceptable f) ms /\
      (todo = 0 -> s' = s) /\
      (todo <> 0 -> exists m, nth_error ms (todo - 1) = Some m /\ f_lam s' = m_lam m /\ f_last s' = Some (m_z m, m_ze m, m_n m))) \/
   (bad = true /\ f_lam s' = (-1)%Q /\ exists ms m, length ms < todo /\ course f o k (f_z s) (ms ++ [m]) (next_at f m) /\ Forall (acceptable f) ms /\
      ~ acceptable f m /\ f_z s' = m_at m)).
Proof.
  intros H0. induction todo as [|todo IH]; intros k s.
  - exists s, false. split; [reflexivity|]. left. split; [reflexivity|]. exists []. cbn. repeat split; auto. intros h; contradiction.
  - cbn [iter]. set (m := meas_at o k (f_z s)).
    pose proof (measured_at o k (f_z s)) as Hm. fold m in Hm. destruct Hm as [Hr Hz].
    change (m_at m) with (f_z s) in Hr, Hz. rewrite Hr, Hz.
    destruct (Qlt_bool (m_lam m) (Qabs (fc_minlambda f / m_scale m))) eqn:E1.
    { eexists _, true. split; [reflexivity|]. right. split; [reflexivity|]. split; [reflexivity|]. exists [], m.
      split; [cbn; lia|]. split; [cbn; split; [reflexivity|split; [split; [exact Hr|exact Hz]|reflexivity]]|]. split; [constructor|].
      split; [|reflexivity]. intros (h & _). apply Qltb_iff in E1. lra. }
    apply Qltb_not in E1.
    destruct (Qlt_bool (m_z m) (fc_zlo f) || Qlt_bool (fc_zhi f) (m_z m)) eqn:E2.
    { eexists _, true. split; [reflexivity|]. right. split; [reflexivity|]. split; [reflexivity|]. exists [], m.
      split; [cbn; lia|]. split; [cbn; split; [reflexivity|split; [split; [exact Hr|exact Hz]|reflexivity]]|]. split; [constructor|].
      split; [|reflexivity]. intros (_ & h1 & h2). apply orb_true_iff in E2. destruct E2 as [E2|E2]; apply Qltb_iff in E2; lra. }
    apply orb_false_iff in E2. destruct E2 as [E2 E3]. apply Qltb_not in E2, E3.
    assert (Hacc : acceptable f m) by (split; [exact E1|split; assumption]).
    assert (Hn : (if fc_keepz f then Ok (f_z s) else set_redshift (m_z m)) = Ok (next_at f m)).
    { destruct (fc_keepz f) eqn:Ek; [unfold next_at; rewrite Ek; reflexivity|].
      destruct (set_redshift_next f m Ek) as (z & -> & ->); [lra|reflexivity]. }
    rewrite Hn. cbn [bind].
    destruct (IH (S k) (mkF (next_at f m) (m_lam m) (Some (m_z m, m_ze m, m_n m)))) as (s' & bad & E & D). exists s', bad. split; [exact E|].
    cbn [f_z f_lam f_last] in D.
    destruct D as [(-> & ms & Hl & Hc & Ha & Hz0 & Hlast)|(-> & Hlam & ms & m' & Hl & Hc & Ha & Hna & Hat)].
    + left. split; [reflexivity|]. exists (m :: ms). split; [cbn; lia|].
      split; [cbn; split; [reflexivity|split; [split; [exact Hr|exact Hz]|exact Hc]]|].
      split; [constructor; assumption|]. split; [discriminate|]. intros _.
      destruct todo as [|todo'].
      * specialize (Hz0 eq_refl). subst s'. exists m. cbn. repeat split; reflexivity.
      * destruct Hlast as (m' & Hn' & Hrest); [discriminate|]. exists m'. split; [|exact Hrest].
        replace (S (S todo') - 1) with (S (S todo' - 1)) by lia. exact Hn'.
    + right. split; [reflexivity|]. split; [exact Hlam|]. exists (m :: ms), m'. split; [cbn; lia|].
      split; [cbn; split; [reflexivity|split; [split; [exact Hr|exact Hz]|exact Hc]]|].
      split; [constructor; assumption|]. split; assumption.
Qed.

Lemma argmin_from_spec l : forall i best v,
  (best < i) ->
  let k := argmin_from i best v l in
  (k = best /\ Forall (fun y => v <= y)%Q l) \/
  (exists j x, k = i + j /\ nth_error l j = Some x /\ (x < v)%Q /\ (forall n y, nth_error l n = Some y -> (x <= y)%Q) /\
     (forall n y, nth_error l n = Some y -> n < j -> (x < y)%Q)).
Proof.
  induction l as [|x l IH]; intros i best v Hb; cbn.
  - left. split; [reflexivity|constructor].
  - destruct (Qlt_bool x v) eqn:E.
    + apply Qltb_iff in E. right. destruct (IH (S i) i x) as [[Hk Hall]|(j & y & Hk & Hj & Hlt & Hmin & Hfst)]; [lia| |].
      * exists 0, x. split; [rewrite Hk; lia|]. split; [reflexivity|]. split; [exact E|]. split.
        -- intros [|n] y Hy; cbn in Hy; [injection Hy as <-; lra|].
           rewrite Forall_forall in Hall. apply Hall, (nth_error_In _ _ Hy).
        -- intros n y _ Hn. lia.
      * exists (S j), y. split; [rewrite Hk; lia|]. split; [exact Hj|]. split; [lra|]. split.
        -- intros [|n] w Hw; cbn in Hw; [injection Hw as <-; lra|exact (Hmin n w Hw)].
        -- intros [|n] w Hw Hn; cbn in Hw; [injection Hw as <-; lra|]. apply (Hfst n w Hw). lia.
    + apply Qltb_not in E. destruct (IH (S i) best v) as [[Hk Hall]|(j & y & Hk & Hj & Hlt & Hmin & Hfst)]; [lia| |].
      * left. split; [exact Hk|]. constructor; assumption.
      * right. exists (S j), y. split; [rewrite Hk; lia|]. split; [exact Hj|]. split; [exact Hlt|]. split.
        -- intros [|n] w Hw; cbn in Hw; [injection Hw as <-; lra|exact (Hmin n w Hw)].
        -- intros [|n] w Hw Hn; cbn in Hw; [injection Hw as <-; lra|]. apply (Hfst n w Hw). lia.
Qed.
Lemma argmin_nearest (nb : list nbr) : nb <> [] -> exists k x, argmin (map fst nb) = Ok k /\ nth_error nb k = Some x /\ nearest nb x.
Proof.
  destruct nb as [|x nb]; [contradiction|]. intros _. cbn [map argmin].
  destruct (argmin_from_spec (map fst nb) 1 0 (fst x)) as [[Hk Hall]|(j & v & Hk & Hj & Hlt & Hmin & Hfst)]; [lia| |].
  - exists 0, x. rewrite Hk. split; [reflexivity|]. split; [reflexivity|]. exists 0. split; [reflexivity|]. split; [|intros; lia].
    intros [|j] y Hy; cbn in Hy; [injection Hy as <-; lra|].
    rewrite Forall_forall in Hall. apply Hall. apply (in_map fst), (nth_error_In _ _ Hy).
  - rewrite nth_error_map in Hj. destruct (nth_error nb j) as [y|] eqn:Ey; [|discriminate]. injection Hj as <-.
    exists (S j), y. rewrite Hk. split; [reflexivity|]. split; [exact Ey|]. exists (S j). split; [exact Ey|]. split.
    + intros [|n] w Hw; cbn in Hw; [injection Hw as <-; lra|]. apply (Hmin n). exact (map_nth_error fst n nb Hw).
    + intros [|n] w Hw Hn; cbn in Hw; [injection Hw as <-; lra|]. apply (Hfst n); [exact (map_nth_error fst n nb Hw)|lia].
Qed.
