From Coq Require Import QArith Qabs Qround.
From Verif.Base Require Import Py PyLemmas.
From Verif.Model Require Import Modes.
From Verif.Spec Require Import Modes.
From Coq Require Import Lqa Lia List.
Import ListNotations.
Local Open Scope nat_scope.
Local Open Scope list_scope.

(** *** the catalog loop *)
Lemma pass_good o p mf n s s' d : pass o p mf n s = (s', false, d) ->
  (mf <= 7 # 10)%Q /\ usable o n (s_z s) /\ s_lambda s' = rich o n (s_z s) /\ (s_zl s', s_zle s') = zlam o n (s_z s) /\
  (converge p = true -> s_z s' = s_zl s' /\ (d = true <-> (Qabs (s_z s - s_zl s') < tol p)%Q)) /\
  (converge p = false -> s_z s' = s_z s /\ d = true).
Proof.
  unfold pass, usable. destruct (Qlt_bool (7 # 10) mf) eqn:E1; [discriminate|]. apply Qlt_bool_false in E1. cbn zeta. cbn [s_z s_lambda s_zl s_zle].
  destruct (Qlt_bool (rich o n (s_z s)) 3) eqn:E2; [discriminate|]. apply Qlt_bool_false in E2.
  destruct (zlam o n (s_z s)) as [zl zle]. cbn [fst]. destruct (Qlt_bool zl 0) eqn:E3; [discriminate|]. apply Qlt_bool_false in E3.
  destruct (converge p).
  - intros [= <- <-]. cbn. rewrite Qlt_bool_iff. repeat split; auto; try tauto; discriminate.
  - intros [= <- <-]. cbn. repeat split; auto; discriminate.
Qed.
Lemma pass_bad_done o p mf n s s' d : pass o p mf n s = (s', true, d) -> d = true.
Proof.
  unfold pass. destruct (Qlt_bool (7 # 10) mf); [intros [= _ <-]; reflexivity|]. cbn zeta.
  destruct (Qlt_bool _ 3); [intros [= _ <-]; reflexivity|]. destruct (zlam o n _) as [zl zle].
  destruct (Qlt_bool zl 0); [intros [= _ <-]; reflexivity|]. destruct (converge p); discriminate.
Qed.
Lemma pass_bad o p mf n s s' d : pass o p mf n s = (s', true, d) -> (7 # 10 < mf)%Q \/ ~ usable o n (s_z s).
Proof.
  unfold pass, usable. destruct (Qlt_bool (7 # 10) mf) eqn:E1; [apply Qlt_bool_iff in E1; auto|]. cbn zeta. cbn [s_z].
  destruct (Qlt_bool (rich o n (s_z s)) 3) eqn:E2; [apply Qlt_bool_iff in E2; intros _; right; intros [H _]; Lqa.lra|].
  destruct (zlam o n (s_z s)) as [zl zle]. cbn [fst]. destruct (Qlt_bool zl 0) eqn:E3; [apply Qlt_bool_iff in E3; intros _; right; intros [_ H]; Lqa.lra|].
  destruct (converge p); discriminate.
Qed.
Lemma loop_good o p mf : (0 < maxiter p)%Z -> forall fuel n s s' m, loop o p mf fuel n s = Some (s', false, m) ->
  exists k s0, m = S k /\ n <= k /\ pass o p mf k s0 = (s', false, true) /\ (converge p = false -> s0 = s).
Proof.
  intros Hm. assert (Em : (0 <? maxiter p)%Z = true) by (apply Z.ltb_lt, Hm).
  induction fuel as [|fuel IH]; intros n s s' m; cbn [loop]; rewrite Em; [discriminate|].
  destruct (pass o p mf n s) as [[s1 b] d] eqn:E. destruct d.
  - intros [= <- -> <-]. exists n, s. auto.
  - intros H. destruct b; [apply pass_bad_done in E; discriminate|]. destruct (IH _ _ _ _ H) as (k & s0 & -> & L & Hp & Hc).
    exists k, s0. repeat split; [lia|exact Hp|]. intros C. exfalso. destruct (pass_good _ _ _ _ _ _ _ E) as (_ & _ & _ & _ & _ & F). destruct (F C); discriminate.
Qed.
Lemma loop_maxiter o p q mf : (0 < maxiter p)%Z -> (0 < maxiter q)%Z -> tol p = tol q -> converge p = converge q ->
  forall fuel n s, loop o p mf fuel n s = loop o q mf fuel n s.
Proof.
  intros H1 H2 Ht Hc. apply Z.ltb_lt in H1, H2.
  assert (P : forall n s, pass o p mf n s = pass o q mf n s) by (intros; unfold pass; rewrite Ht, Hc; reflexivity).
  induction fuel as [|fuel IH]; intros n s; cbn [loop]; rewrite H1, H2; [reflexivity|]. rewrite P.
  destruct (pass o q mf n s) as [[s1 b] d]. destruct d; [reflexivity|]. apply IH.
Qed.
Lemma loop_endless o p mf : (0 < maxiter p)%Z -> converge p = true -> (mf <= 7 # 10)%Q ->
  (forall n z, (0 <= z)%Q -> usable o n z) -> (forall n z, (0 <= z)%Q -> (tol p <= Qabs (z - fst (zlam o n z)))%Q) ->
  forall fuel n s, (0 <= s_z s)%Q -> loop o p mf fuel n s = None.
Proof.
  intros Hm Hc Hmf Hu Ht. apply Z.ltb_lt in Hm. induction fuel as [|fuel IH]; intros n s Hz; cbn [loop]; rewrite Hm; [reflexivity|].
  destruct (pass o p mf n s) as [[s1 b] d] eqn:E. destruct b.
  - exfalso. destruct (pass_bad _ _ _ _ _ _ _ E) as [H|H]; [Lqa.lra|exact (H (Hu n _ Hz))].
  - destruct (pass_good _ _ _ _ _ _ _ E) as (_ & U & _ & EZ & F & _). destruct (F Hc) as [F1 F2].
    assert (EZ1 : s_zl s1 = fst (zlam o n (s_z s))) by (rewrite <- EZ; reflexivity).
    destruct d.
    + exfalso. pose proof (proj1 F2 eq_refl) as L. rewrite EZ1 in L. specialize (Ht n _ Hz). Lqa.lra.
    + apply IH. rewrite F1, EZ1. apply U.
Qed.
(** *** mask fractions *)
Lemma ratio_bounds a b : a <= b -> b <> 0 -> (0 <= ratio a b <= 1)%Q.
Proof.
  intros H Hb. unfold ratio. assert (P : (0 < inject_Z (Z.of_nat b))%Q) by (unfold Qlt, inject_Z; cbn; lia).
  split; [apply Qle_shift_div_l; [exact P|]|apply Qle_shift_div_r; [exact P|]].
  - rewrite Qmult_0_l. change 0%Q with (inject_Z 0). rewrite <- Zle_Qle. lia.
  - rewrite Qmult_1_l. rewrite <- Zle_Qle. lia.
Qed.
Lemma ratio_one a b : a <= b -> b <> 0 -> (ratio a b == 1)%Q <-> a = b.
Proof.
  intros H Hb. unfold ratio. assert (P : (0 < inject_Z (Z.of_nat b))%Q) by (unfold Qlt, inject_Z; cbn; lia). split.
  - intros E. assert (X : (inject_Z (Z.of_nat a) == inject_Z (Z.of_nat b))%Q).
    { rewrite <- (Qmult_1_l (inject_Z (Z.of_nat b))), <- E. field. Lqa.lra. }
    unfold Qeq, inject_Z in X. cbn in X. lia.
  - intros ->. field. Lqa.lra.
Qed.
Lemma ratio_zero a b : b <> 0 -> (ratio a b == 0)%Q <-> a = 0.
Proof.
  intros Hb. unfold ratio. assert (P : (0 < inject_Z (Z.of_nat b))%Q) by (unfold Qlt, inject_Z; cbn; lia). split.
  - intros E. assert (X : (inject_Z (Z.of_nat a) == 0)%Q).
    { rewrite <- (Qmult_0_l (inject_Z (Z.of_nat b))), <- E. field. Lqa.lra. }
    unfold Qeq, inject_Z in X. cbn in X. lia.
  - intros ->. unfold Qdiv. apply Qmult_0_l.
Qed.
Lemma filter_len {A} (p : A -> bool) l : length (filter p l) <= length l.
Proof. induction l as [|a l IH]; cbn; [lia|]. destruct (p a); cbn; lia. Qed.
Lemma filter_len_full {A} (p : A -> bool) l : length (filter p l) = length l <-> forall x, In x l -> p x = true.
Proof.
  induction l as [|a l IH]; cbn; [tauto|]. pose proof (filter_len p l). destruct (p a) eqn:E; cbn.
  - split; [intros H1 x [<-|Hx]; [exact E|apply IH; [lia|exact Hx]]|]. intros H1. f_equal. apply IH. intros x Hx. apply H1. auto.
  - split; [lia|]. intros H1. rewrite (H1 a (or_introl eq_refl)) in E. discriminate.
Qed.
Lemma filter_len_zero {A} (p : A -> bool) l : length (filter p l) = 0 <-> forall x, In x l -> p x = false.
Proof.
  induction l as [|a l IH]; cbn; [tauto|]. destruct (p a) eqn:E; cbn.
  - split; [lia|]. intros H1. rewrite (H1 a (or_introl eq_refl)) in E. discriminate.
  - rewrite IH. split; [intros H1 x [<-|Hx]; auto|intros H1 x Hx; apply H1; auto].
Qed.
Lemma masked_all rc g : length (masked (inside rc g)) = length (inside rc g) <-> forall r ok, In (r, ok) g -> (r < rc)%Q -> ok = false.
Proof.
  unfold masked. rewrite filter_len_full. unfold inside. split.
  - intros H r ok Hi Hr. specialize (H (r, ok)). rewrite filter_In in H. cbn in H. rewrite Qlt_bool_iff in H. specialize (H (conj Hi Hr)). destruct ok; [discriminate|reflexivity].
  - intros H [r ok] Hi. apply filter_In in Hi. cbn in *. destruct Hi as [Hi Hr]. apply Qlt_bool_iff in Hr. rewrite (H r ok Hi Hr). reflexivity.
Qed.
Lemma masked_none rc g : length (masked (inside rc g)) = 0 <-> forall r ok, In (r, ok) g -> (r < rc)%Q -> ok = true.
Proof.
  unfold masked. rewrite filter_len_zero. unfold inside. split.
  - intros H r ok Hi Hr. specialize (H (r, ok)). rewrite filter_In in H. cbn in H. rewrite Qlt_bool_iff in H. specialize (H (conj Hi Hr)). destruct ok; [reflexivity|discriminate].
  - intros H [r ok] Hi. apply filter_In in Hi. cbn in *. destruct Hi as [Hi Hr]. apply Qlt_bool_iff in Hr. rewrite (H r ok Hi Hr). reflexivity.
Qed.
Lemma inside_nil rc g : length (inside rc g) = 0 <-> forall r ok, In (r, ok) g -> ~ (r < rc)%Q.
Proof.
  unfold inside. rewrite filter_len_zero. split.
  - intros H r ok Hi Hr. specialize (H (r, ok) Hi). cbn in H. apply Qlt_bool_iff in Hr. congruence.
  - intros H [r ok] Hi. cbn. destruct (Qlt_bool r rc) eqn:E; [|reflexivity]. apply Qlt_bool_iff in E. exfalso. exact (H r ok Hi E).
Qed.

(** *** argmax *)
Lemma argmax_from_spec l : forall best bi i (full : list Q),
  bi < i -> length full = i + length l -> (forall j x, nth_error l j = Some x -> nth_error full (i + j) = Some x) ->
  nth_error full bi = Some best ->
  (forall j x, j < i -> nth_error full j = Some x -> (x <= best)%Q) ->
  (forall j x, j < bi -> nth_error full j = Some x -> (x < best)%Q) ->
  exists v, nth_error full (argmax_from best bi i l) = Some v /\
    (forall j x, nth_error full j = Some x -> (x <= v)%Q) /\
    (forall j x, j < argmax_from best bi i l -> nth_error full j = Some x -> (x < v)%Q).
Proof.
  induction l as [|y l IH]; intros best bi i full Hb Hl Ha Hn Hle Hlt; cbn [argmax_from].
  - exists best. split; [exact Hn|]. split; [|exact Hlt]. intros j x Hj. apply (Hle j x); [|exact Hj].
    assert (j < length full) by (apply nth_error_Some; congruence). cbn in Hl. lia.
  - assert (Hy : nth_error full i = Some y) by (rewrite <- (Nat.add_0_r i); apply Ha; reflexivity).
    destruct (Qlt_bool best y) eqn:E.
    + apply Qlt_bool_iff in E. apply IH; [lia|cbn in Hl; lia| |exact Hy| |].
      * intros j x Hj. replace (S i + j) with (i + S j) by lia. apply Ha. exact Hj.
      * intros j x Hj Hx. destruct (Nat.eq_dec j i) as [->|]; [rewrite Hy in Hx; injection Hx as <-; Lqa.lra|].
        pose proof (Hle j x ltac:(lia) Hx). Lqa.lra.
      * intros j x Hj Hx. pose proof (Hle j x Hj Hx). Lqa.lra.
    + apply Qlt_bool_false in E. apply IH; [lia|cbn in Hl; lia| |exact Hn| |exact Hlt].
      * intros j x Hj. replace (S i + j) with (i + S j) by lia. apply Ha. exact Hj.
      * intros j x Hj Hx. destruct (Nat.eq_dec j i) as [->|]; [rewrite Hy in Hx; injection Hx as <-; exact E|].
        apply (Hle j x ltac:(lia) Hx).
Qed.
Lemma argmax_spec l : l <> [] -> exists i v, argmax l = Ok i /\ nth_error l i = Some v /\
  (forall j x, nth_error l j = Some x -> (x <= v)%Q) /\ (forall j x, j < i -> nth_error l j = Some x -> (x < v)%Q).
Proof.
  destruct l as [|a l]; [congruence|]. intros _. cbn [argmax].
  destruct (argmax_from_spec l a 0 1 (a :: l)) as (v & H1 & H2 & H3).
  - lia.
  - reflexivity.
  - intros j x Hj. exact Hj.
  - reflexivity.
  - intros j x Hj Hx. destruct j; [|lia]. cbn in Hx. injection Hx as <-. Lqa.lra.
  - intros j x Hj. lia.
  - exists (argmax_from a 0 1 l), v. auto.
Qed.

Lemma scan_ok ml zs steps : steps <> [] -> exists o, scan ml zs steps = Ok o /\
  (exists st, nth_error steps (max_ind o) = Some st /\ lmax o = (match st with Some (_, l) => l | None => (-1)%Q end) /\
     zmax o = nth (max_ind o) zs 0%Q /\
     scan_bad o = Qlt_bool (match st with Some (l, _) => l | None => (-1)%Q end) ml) /\
  (forall j st, nth_error steps j = Some st -> (match st with Some (_, l) => l | None => (-1)%Q end <= lmax o)%Q) /\
  (forall j st, j < max_ind o -> nth_error steps j = Some st -> (match st with Some (_, l) => l | None => (-1)%Q end < lmax o)%Q).
Proof.
  intros H. unfold scan. destruct (argmax_spec (like_steps steps)) as (i & v & E & Hn & H1 & H2).
  { unfold like_steps. intros F. apply map_eq_nil in F. contradiction. }
  rewrite E. cbn [bind]. eexists. split; [reflexivity|]. cbn [max_ind lmax zmax scan_bad].
  unfold step_result in *. unfold like_steps in Hn. rewrite nth_error_map in Hn. destruct (nth_error steps i) as [st|] eqn:Es; [|cbn in Hn; discriminate Hn]. cbn in Hn. injection Hn as Hv.
  assert (Nv : nth i (like_steps steps) 0%Q = v).
  { apply nth_error_nth. unfold like_steps. rewrite nth_error_map, Es. cbn. f_equal. exact Hv. }
  rewrite Nv. split; [|split].
  - exists st. split; [reflexivity|]. split; [now rewrite Hv|]. split; [reflexivity|]. f_equal.
    apply nth_error_nth. unfold lambda_steps. rewrite nth_error_map, Es. reflexivity.
  - intros j s Hj. apply (H1 j). unfold like_steps. rewrite nth_error_map, Hj. reflexivity.
  - intros j s Hi Hj. apply (H2 j); [exact Hi|]. unfold like_steps. rewrite nth_error_map, Hj. reflexivity.
Qed.

(** *** the grid *)
Lemma zgrid_spec z0 z1 step : (0 < step)%Q -> (z0 < z1)%Q ->
  (forall k z, nth_error (z_array z0 z1 step) k = Some z -> (z == z0 + inject_Z (Z.of_nat k) * step)%Q /\ (z < z1)%Q) /\
  (exists z, nth_error (z_array z0 z1 step) (length (z_array z0 z1 step) - 1) = Some z /\ (z1 <= z + step)%Q).
Proof.
  intros Hs Hz. unfold z_array, nzstep. set (x := ((z1 - z0) / step)%Q).
  assert (Hx : (0 < x)%Q) by (apply Qlt_shift_div_l; [exact Hs|Lqa.lra]).
  assert (Ex : (x * step == z1 - z0)%Q) by (unfold x; field; Lqa.lra).
  pose proof (Qle_ceiling x) as C1. pose proof (Qceiling_lt x) as C2.
  assert (Cp : (0 < Qceiling x)%Z). { destruct (Z_lt_le_dec 0 (Qceiling x)) as [|L]; [assumption|]. exfalso.
    assert ((inject_Z (Qceiling x) <= 0)%Q) by (change 0%Q with (inject_Z 0); rewrite <- Zle_Qle; exact L). Lqa.lra. }
  set (n := Z.to_nat (Qceiling x)). assert (En : Z.of_nat n = Qceiling x) by (unfold n; apply Z2Nat.id; lia).
  assert (Np : 0 < n) by lia. split.
  - intros k z Hk. rewrite nth_error_map in Hk. destruct (nth_error (seq 0 n) k) as [k'|] eqn:Ek; [|discriminate].
    assert (Lk : k < n) by (rewrite <- (seq_length n 0); apply nth_error_Some; congruence).
    rewrite (nth_error_nth' _ 0) in Ek by (rewrite seq_length; lia). rewrite seq_nth in Ek by lia. injection Ek as <-.
    cbn in Hk. injection Hk as <-. split; [ring|].
    assert (B : (inject_Z (Z.of_nat k) <= inject_Z (Qceiling x - 1))%Q) by (rewrite <- Zle_Qle; lia).
    assert (B2 : (inject_Z (Z.of_nat k) < x)%Q) by Lqa.lra.
    apply (Qmult_lt_compat_r _ _ step Hs) in B2. Lqa.lra.
  - rewrite map_length, seq_length. exists (inject_Z (Z.of_nat (n - 1)) * step + z0)%Q. split.
    + rewrite nth_error_map. rewrite (nth_error_nth' _ 0) by (rewrite seq_length; lia). rewrite seq_nth by lia. reflexivity.
    + assert (B : (inject_Z (Z.of_nat (n - 1)) == inject_Z (Qceiling x) - 1)%Q).
      { replace (Z.of_nat (n - 1)) with (Qceiling x - 1)%Z by lia. unfold Z.sub. rewrite inject_Z_plus. reflexivity. }
      rewrite B. assert (M : (x * step <= inject_Z (Qceiling x) * step)%Q) by (apply Qmult_le_compat_r; [exact C1|Lqa.lra]). Lqa.lra.
Qed.

(** *** the mask *)
Lemma hp_mask_nth frac unseen u ra dec out k r d : hp_mask frac unseen u ra dec = Ok out ->
  nth_error ra k = Some r -> nth_error dec k = Some d ->
  nth_error out k = Some (Qlt_bool (u k) (if Qlt_bool (Qabs d) 90 then match frac r d with Some f => f | None => unseen end else 0%Q)).
Proof.
  unfold hp_mask. destruct (Nat.eqb_spec (length ra) (length dec)) as [L|]; [|discriminate]. cbn [negb]. intros [= <-] Hr Hd.
  assert (Lk : k < length ra) by (apply nth_error_Some; congruence).
  rewrite nth_error_map.
  assert (E : nth_error (combine (seq 0 (length ra)) (combine ra dec)) k = Some (k, (r, d))).
  { rewrite (nth_error_nth' _ (k, (r, d))) by (rewrite !combine_length, seq_length, <- L; lia). f_equal.
    rewrite combine_nth by (rewrite seq_length, combine_length, <- L; lia). rewrite seq_nth by lia.
    rewrite combine_nth by exact L. rewrite (nth_error_nth _ _ r Hr), (nth_error_nth _ _ d Hd). reflexivity. }
  rewrite E. reflexivity.
Qed.
