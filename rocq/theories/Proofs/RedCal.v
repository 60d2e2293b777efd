(** Proofs about the calibration of the redMaGiC cuts. *)
From Coq Require Import QArith Qround Lqa Lia.
From Verif.Base Require Import Py PyLemmas.
From Verif.Model Require Import Util Maskgals RedCal.
From Verif.Spec Require Import RedCal.
From Verif.Proofs Require Import Util Maskgals.
From Coq Require Import Lqa Lia List String Sorting.Sorted Permutation. Import ListNotations.
Local Open Scope Q_scope.

(** ** sorted lists *)
Lemma ins_sorted x l : StronglySorted Qle l -> StronglySorted Qle (ins x l).
Proof.
  induction 1 as [|y t Hs IH Hf]; cbn; [repeat constructor|]. destruct (Qle_bool x y) eqn:E.
  - apply Qle_bool_iff in E. constructor; [constructor; assumption|]. constructor; [exact E|]. eapply Forall_impl; [|exact Hf]. cbn. intros a Ha. lra.
  - apply Qle_bool_false in E. constructor; [exact IH|]. apply Forall_forall. intros a Ha.
    apply (Permutation_in _ (ins_perm x t)) in Ha. destruct Ha as [<-|Ha]; [lra|]. rewrite Forall_forall in Hf. auto.
Qed.
Lemma sort_sorted l : StronglySorted Qle (sortQ l).
Proof. induction l as [|x t IH]; cbn; [constructor|apply ins_sorted, IH]. Qed.
Lemma sort_len l : List.length (sortQ l) = List.length l.
Proof. apply Permutation_length, sort_perm. Qed.
Lemma count_perm {A} (p : A -> bool) l l' : Permutation l l' -> count p l = count p l'.
Proof. unfold count. induction 1; cbn [filter]; [reflexivity| | |congruence]; repeat destruct (p _); cbn; congruence. Qed.
Lemma count_app {A} (p : A -> bool) l l' : count p (l ++ l') = (count p l + count p l')%nat.
Proof. unfold count. induction l as [|a l IH]; cbn; [reflexivity|]. destruct (p a); cbn; rewrite IH; reflexivity. Qed.
Lemma count_le {A} (p : A -> bool) l : (count p l <= List.length l)%nat.
Proof. unfold count. induction l as [|a l IH]; cbn; [lia|]. destruct (p a); cbn; lia. Qed.
Lemma count_none {A} (p : A -> bool) l : (forall x, In x l -> p x = false) -> count p l = 0%nat.
Proof. unfold count. induction l as [|a l IH]; intros H; cbn; [reflexivity|]. rewrite (H a (or_introl eq_refl)). apply IH. intros; apply H; right; assumption. Qed.
Lemma count_all {A} (p : A -> bool) l : (forall x, In x l -> p x = true) -> count p l = List.length l.
Proof. unfold count. induction l as [|a l IH]; intros H; cbn; [reflexivity|]. rewrite (H a (or_introl eq_refl)). cbn. rewrite IH; [reflexivity|]. intros; apply H; right; assumption. Qed.
Lemma sorted_split l k c : StronglySorted Qle l -> nth_error l k = Some c ->
  (count (fun x => Qlt_bool x c) l <= k)%nat /\ (k < count (fun x => Qle_bool x c) l)%nat.
Proof.
  intros Hs Hk. assert (Hl : (k < List.length l)%nat) by (apply nth_error_Some; congruence). split.
  - rewrite <- (firstn_skipn k l), count_app.
    assert (E : count (fun x => Qlt_bool x c) (skipn k l) = 0%nat).
    { apply count_none. intros x Hx. apply Qlt_bool_false. apply In_nth_error in Hx. destruct Hx as (i & Hi).
      assert (Hj : nth_error l (k + i) = Some x) by (rewrite <- Hi; clear; revert l; induction k as [|k IH]; intros l; [reflexivity|]; destruct l as [|y l]; [destruct i; reflexivity|]; cbn; apply IH).
      destruct i as [|i]; [rewrite Nat.add_0_r in Hj; assert (x = c) by congruence; subst; lra|].
      eapply (SS_nth Qle l k (k + S i)); [exact Hs|lia|exact Hk|exact Hj]. }
    rewrite E. pose proof (count_le (fun x => Qlt_bool x c) (firstn k l)). rewrite firstn_length in H. lia.
  - rewrite <- (firstn_skipn (S k) l), count_app.
    assert (E : count (fun x => Qle_bool x c) (firstn (S k) l) = S k).
    { rewrite count_all; [rewrite firstn_length; lia|]. intros x Hx. apply Qle_bool_iff. apply In_nth_error in Hx. destruct Hx as (i & Hi).
      assert (Hik : (i < S k)%nat) by (assert (i < List.length (firstn (S k) l))%nat by (apply nth_error_Some; congruence); rewrite firstn_length in H; lia).
      assert (Hj : nth_error l i = Some x).
      { rewrite <- (firstn_skipn (S k) l). rewrite nth_error_app1; [exact Hi|]. rewrite firstn_length. lia. }
      destruct (Nat.eq_dec i k) as [->|Hne]; [assert (x = c) by congruence; subst; lra|].
      eapply (SS_nth Qle l i k); [exact Hs|lia|exact Hj|exact Hk]. }
    rewrite E. lia.
Qed.

(** ** starting value *)
Lemma dens_sorted vol n : 0 < vol -> StronglySorted Qle (map (fun i => Qn i / vol) (seq 0 n)).
Proof.
  intros Hv. generalize 0%nat. induction n as [|n IH]; intros a; cbn; [constructor|]. constructor; [apply IH|].
  apply Forall_forall. intros x Hx. apply in_map_iff in Hx. destruct Hx as (i & <- & Hi). apply in_seq in Hi.
  apply Qmult_le_compat_r; [|apply Qinv_le_0_compat; lra]. unfold Qn. rewrite <- Zle_Qle. lia.
Qed.
Lemma start_index n vol N : 0 < vol -> 0 <= n -> (0 < N)%nat ->
  Z.of_nat (Nat.min (ss_left (map (fun i => Qn i / vol) (seq 0 N)) n) (N - 1)) = Z.min (Qceiling (n * vol)) (Z.of_nat N - 1).
Proof.
  intros Hv Hn HN. set (den := map _ _). set (s := ss_left den n).
  assert (L : List.length den = N) by (unfold den; rewrite map_length, seq_length; reflexivity).
  assert (K : forall i, (i < N)%nat -> ((i < s)%nat <-> Qn i < n * vol)).
  { intros i Hi. assert (Hd : nth_error den i = Some (Qn i / vol)).
    { unfold den. rewrite (map_nth_error _ i (seq 0 N) (d := i)); [reflexivity|]. rewrite (nth_error_nth' _ 0%nat) by (rewrite seq_length; exact Hi). rewrite seq_nth by exact Hi. reflexivity. }
    unfold s. rewrite (ss_left_spec den n i _ (dens_sorted vol N Hv) Hd). split; intros H.
    - assert (E : Qn i == Qn i / vol * vol) by (field; lra). rewrite E. apply Qmult_lt_compat_r; assumption.
    - apply Qlt_shift_div_r; assumption. }
  assert (C : forall i : nat, Qn i < n * vol <-> (Z.of_nat i < Qceiling (n * vol))%Z).
  { intros i. unfold Qn. split; intros H.
    - pose proof (Qle_ceiling (n * vol)). assert (inject_Z (Z.of_nat i) < inject_Z (Qceiling (n * vol))) by lra. rewrite <- Zlt_Qlt in H1. exact H1.
    - pose proof (Qceiling_lt (n * vol)). assert (inject_Z (Z.of_nat i) <= inject_Z (Qceiling (n * vol) - 1)) by (rewrite <- Zle_Qle; lia). lra. }
  assert (C0 : (0 <= Qceiling (n * vol))%Z).
  { pose proof (Qle_ceiling (n * vol)). assert (0 <= n * vol) by (apply Qmult_le_0_compat; lra). assert (inject_Z 0 <= inject_Z (Qceiling (n * vol))) by (change (inject_Z 0) with 0; lra). rewrite <- Zle_Qle in H1. exact H1. }
  destruct (Z_lt_ge_dec (Qceiling (n * vol)) (Z.of_nat N)) as [Hlt|Hge].
  - assert (E : Z.of_nat s = Qceiling (n * vol)).
    { set (k := Z.to_nat (Qceiling (n * vol))). assert (Hk : (k < N)%nat) by (unfold k; lia).
      assert (A : ~ (k < s)%nat) by (rewrite (K k Hk), (C k); unfold k; lia).
      destruct (le_lt_dec k s) as [B|B]; [unfold k in *; lia|]. exfalso. assert (A' : ~ (s < s)%nat) by lia. apply A'. apply (K s); [lia|]. apply C. unfold k in B. lia. }
    lia.
  - assert (~ (s <= N - 1)%nat); [|lia]. intros B. destruct (Nat.eq_dec s (N - 1)) as [Es|Ns].
    + assert (A' : ~ (s < s)%nat) by lia. apply A'. apply (K s); [lia|]. apply C. lia.
    + assert (A' : ~ (s < s)%nat) by lia. apply A'. apply (K s); [lia|]. apply C. lia.
Qed.

(** ** histogram *)
Lemma Qn_S j : Qn (S j) == Qn j + 1.
Proof. unfold Qn. rewrite Nat2Z.inj_succ. unfold Z.succ. rewrite inject_Z_plus. reflexivity. Qed.
Lemma trunc_bin lo bs x j : 0 < bs -> lo <= x -> ((Qtrunc ((x - lo) / bs) =? Z.of_nat j)%Z = true <-> lo + Qn j * bs <= x /\ x < lo + Qn (S j) * bs).
Proof.
  intros Hb Hx. set (q := (x - lo) / bs). assert (E : x == lo + q * bs) by (unfold q; field; lra).
  assert (Q0 : 0 <= q) by (unfold q; apply Qle_shift_div_l; lra). rewrite Qtrunc_floor by exact Q0. rewrite Z.eqb_eq.
  pose proof (Qfloor_le q) as F1. pose proof (Qlt_floor q) as F2. rewrite inject_Z_plus in F2. change (inject_Z 1) with 1 in F2.
  split; intros H.
  - rewrite H in *. change (inject_Z (Z.of_nat j)) with (Qn j) in *. rewrite E, Qn_S. split.
    + assert (Qn j * bs <= q * bs) by (apply Qmult_le_compat_r; lra). lra.
    + assert (q * bs < (Qn j + 1) * bs) by (apply Qmult_lt_compat_r; lra). lra.
  - destruct H as [H1 H2]. rewrite Qn_S in H2.
    assert (G1 : Qn j <= q) by (unfold q; apply Qle_shift_div_l; lra). assert (G2 : q < Qn j + 1) by (unfold q; apply Qlt_shift_div_r; lra).
    assert (A1 : inject_Z (Z.of_nat j) < inject_Z (Qfloor q + 1)) by (rewrite inject_Z_plus; change (inject_Z 1) with 1; unfold Qn in *; lra).
    assert (A2 : inject_Z (Qfloor q) < inject_Z (Z.of_nat j + 1)) by (rewrite (inject_Z_plus (Z.of_nat j)); change (inject_Z 1) with 1; unfold Qn in *; lra).
    rewrite <- Zlt_Qlt in A1, A2. lia.
Qed.
Lemma Qle_bool_comp a b a' b' : a == a' -> b == b' -> Qle_bool a b = Qle_bool a' b'.
Proof. intros H H'. rewrite H, H'. reflexivity. Qed.
Lemma hist_spec lo hi bs xs N : 0 < bs -> (0 < N)%nat -> lo + Qn (N - 1) * bs <= hi -> hi < lo + Qn N * bs ->
  List.length (histogram lo hi bs xs) = N /\
  forall j, (j < N)%nat -> nth_error (histogram lo hi bs xs) j = Some (count (in_bin lo hi bs j) xs).
Proof.
  intros Hb HN H1 H2. assert (Hlh : lo <= hi) by (assert (0 <= Qn (N - 1) * bs) by (apply Qmult_le_0_compat; [unfold Qn; change 0 with (inject_Z 0); rewrite <- Zle_Qle; lia|lra]); lra).
  assert (T : Qtrunc ((hi - lo) / bs) = Z.of_nat (N - 1)).
  { apply Z.eqb_eq, trunc_bin; try assumption. replace (S (N - 1)) with N by lia. auto. }
  unfold histogram. rewrite T. replace (Z.to_nat (Z.of_nat (N - 1) + 1)) with N by lia. rewrite map_length, seq_length. split; [reflexivity|].
  intros j Hj. rewrite (map_nth_error _ j (seq 0 N) (d := j)) by (rewrite (nth_error_nth' _ 0%nat) by (rewrite seq_length; exact Hj); rewrite seq_nth by exact Hj; reflexivity).
  f_equal. unfold count. induction xs as [|x t IH]; [reflexivity|]. cbn [filter].
  destruct (Qle_bool lo x) eqn:E1; cbn [andb].
  - apply Qle_bool_iff in E1. destruct (Qle_bool x hi) eqn:E2.
    + cbn [filter]. assert (E : (Qtrunc ((x - lo) / bs) =? Z.of_nat j)%Z = in_bin lo hi bs j x).
      { unfold in_bin. rewrite E2, andb_true_r. apply eq_true_iff_eq. rewrite (trunc_bin lo bs x j Hb E1), andb_true_iff, Qle_bool_iff, Qlt_bool_iff. reflexivity. }
      rewrite E. destruct (in_bin lo hi bs j x); cbn [List.length]; rewrite IH; reflexivity.
    + assert (E : in_bin lo hi bs j x = false) by (unfold in_bin; rewrite E2; apply andb_false_r). rewrite E. exact IH.
  - assert (E : in_bin lo hi bs j x = false).
    { unfold in_bin. apply Qle_bool_false in E1. assert (0 <= Qn j * bs) by (apply Qmult_le_0_compat; [unfold Qn; change 0 with (inject_Z 0); rewrite <- Zle_Qle; lia|lra]).
      assert (F : Qle_bool (lo + Qn j * bs) x = false) by (apply not_true_iff_false; intros K; apply Qle_bool_iff in K; lra). rewrite F. reflexivity. }
    rewrite E. exact IH.
Qed.

Lemma bin_cost_zero n h v : 0 < n -> 0 < v -> 0 <= bin_cost n (h, v) /\ (bin_cost n (h, v) == 0 <-> Qn h == n * v).
Proof.
  intros Hn Hv. unfold bin_cost. set (d := Qn h / v - n).
  assert (P : 0 < n / v) by (apply Qlt_shift_div_l; lra).
  assert (D0 : 0 <= d * d) by (destruct (Qlt_le_dec d 0); [assert (0 <= (-d) * (-d)) by (apply Qmult_le_0_compat; lra); lra|apply Qmult_le_0_compat; lra]).
  split; [apply Qle_shift_div_l; lra|]. split; intros H.
  - assert (E : d * d == 0) by (assert (E0 : d * d == d * d / (n / v) * (n / v)) by (field; split; lra); rewrite E0, H; ring).
    apply Qmult_integral in E. assert (Ed : d == 0) by (destruct E; assumption). unfold d in Ed. assert (E1 : Qn h == (Qn h / v - n) * v + n * v) by (field; lra). rewrite E1, Ed. ring.
  - assert (Ed : d == 0) by (unfold d; rewrite H; field; lra). rewrite Ed. field. split; lra.
Qed.
Lemma sum_cost_zero n hs : forall vs, 0 < n -> (forall v, In v vs -> 0 < v) -> List.length hs = List.length vs ->
  0 <= Qsum (map (bin_cost n) (combine hs vs)) /\
  (Qsum (map (bin_cost n) (combine hs vs)) == 0 <-> forall j h v, nth_error hs j = Some h -> nth_error vs j = Some v -> Qn h == n * v).
Proof.
  induction hs as [|h hs IH]; intros [|v vs] Hn Hv L; try discriminate.
  - cbn. split; [lra|]. split; [intros _ [|j]; discriminate|reflexivity].
  - cbn [combine map Qsum]. destruct (bin_cost_zero n h v Hn (Hv v (or_introl eq_refl))) as [A1 A2].
    destruct (IH vs Hn (fun w Hw => Hv w (or_intror Hw)) ltac:(cbn in L; lia)) as [B1 B2]. split; [lra|]. split.
    + intros H. assert (H1 : bin_cost n (h, v) == 0) by lra. assert (H2 : Qsum (map (bin_cost n) (combine hs vs)) == 0) by lra.
      intros [|j] h' v'; cbn; [intros [= <-] [= <-]; apply A2, H1|apply (proj1 B2 H2)].
    + intros H. assert (H1 : bin_cost n (h, v) == 0) by (apply A2, (H 0%nat); reflexivity).
      assert (H2 : Qsum (map (bin_cost n) (combine hs vs)) == 0) by (apply B2; intros j h' v' Hh' Hv'; apply (H (S j)); assumption). lra.
Qed.

(** ** ranges *)
Lemma even_spec lo hi bs : 0 < bs -> lo < hi -> exists N, (0 < N)%nat /\ nbin_of lo hi bs = Z.of_nat N /\
  snd (even_range lo hi bs) == lo + Qn N * bs /\ hi <= lo + Qn N * bs /\ lo + Qn N * bs < hi + bs.
Proof.
  intros Hb Hh. unfold even_range, nbin_of. set (q := (hi - lo) / bs). assert (Q0 : 0 < q) by (unfold q; apply Qlt_shift_div_l; lra).
  assert (E : hi == lo + q * bs) by (unfold q; field; lra). pose proof (Qle_ceiling q) as C1. pose proof (Qceiling_lt q) as C2.
  assert (P : (0 < Qceiling q)%Z) by (assert (K : inject_Z 0 < inject_Z (Qceiling q)) by (change (inject_Z 0) with 0; lra); rewrite <- Zlt_Qlt in K; exact K).
  exists (Z.to_nat (Qceiling q)). assert (QN : Qn (Z.to_nat (Qceiling q)) = inject_Z (Qceiling q)) by (unfold Qn; rewrite Z2Nat.id by lia; reflexivity).
  split; [lia|]. split; [lia|]. rewrite QN. cbn [snd]. split; [ring|]. split.
  - rewrite E at 1. assert (q * bs <= inject_Z (Qceiling q) * bs) by (apply Qmult_le_compat_r; lra). lra.
  - assert (E2 : inject_Z (Qceiling q) == inject_Z (Qceiling q - 1) + 1) by (change 1 with (inject_Z 1); rewrite <- inject_Z_plus; replace (Qceiling q - 1 + 1)%Z with (Qceiling q) by lia; reflexivity).
    assert (inject_Z (Qceiling q - 1) * bs < q * bs) by (apply Qmult_lt_compat_r; lra). rewrite E2, E. lra.
Qed.
Lemma even_mono lo hi hi' bs : 0 < bs -> hi <= hi' -> snd (even_range lo hi bs) <= snd (even_range lo hi' bs).
Proof.
  intros Hb Hh. cbn. unfold nbin_of. assert (K : (Qceiling ((hi - lo) / bs) <= Qceiling ((hi' - lo) / bs))%Z).
  { apply Qceiling_resp_le. apply Qmult_le_compat_r; [lra|]. apply Qinv_le_0_compat. lra. }
  rewrite Zle_Qle in K. assert (inject_Z (Qceiling ((hi - lo) / bs)) * bs <= inject_Z (Qceiling ((hi' - lo) / bs)) * bs) by (apply Qmult_le_compat_r; lra). lra.
Qed.
Lemma minQ_le l : forall x, In x l -> minQ l <= x.
Proof.
  destruct l as [|a t]; [intros x []|]. cbn [minQ]. revert a. induction t as [|b t IH]; intros a x; cbn [fold_left].
  - intros [<-|[]]. lra.
  - assert (M : Qmin2 a b <= a /\ Qmin2 a b <= b) by (unfold Qmin2; destruct (Qle_bool a b) eqn:E; [apply Qle_bool_iff in E|apply Qle_bool_false in E]; split; lra).
    assert (B : fold_left Qmin2 t (Qmin2 a b) <= Qmin2 a b) by (apply IH; left; reflexivity).
    intros [<-|[<-|H]]; [lra|lra|]. apply (IH (Qmin2 a b)). right. exact H.
Qed.
Lemma min_lum_mono a b : a <= b -> min_lum a <= min_lum b.
Proof. intros H. unfold min_lum, Qmax2. destruct (Qle_bool (a - lstar_cushion) (1#10)) eqn:E1, (Qle_bool (b - lstar_cushion) (1#10)) eqn:E2; try apply Qle_bool_iff in E1; try apply Qle_bool_false in E1; try apply Qle_bool_iff in E2; try apply Qle_bool_false in E2; lra. Qed.

(** ** file *)
Lemma calib_app {C} (f g : calfile C) name : calib_of (f ++ g) name = match calib_of g name with Some c => Some c | None => calib_of f name end.
Proof.
  unfold calib_of. rewrite rev_app_distr. generalize (rev f). generalize (rev g). intros a b. induction a as [|x a IH]; cbn [app find]; [reflexivity|].
  destruct (String.eqb (fst x) name); [destruct x; reflexivity|apply IH].
Qed.
Lemma calibrate_file {C} (modes : list (string * C)) : forall f, fst (calibrate f modes) = (f ++ modes)%list /\ snd (calibrate f modes) = map (fun nc => Some (snd nc)) modes.
Proof.
  induction modes as [|[name c] t IH]; intros f; cbn [calibrate].
  - rewrite app_nil_r. auto.
  - destruct (calibrate (add_mode f name c) t) as [f2 used] eqn:E. destruct (IH (add_mode f name c)) as [H1 H2]. rewrite E in H1, H2. cbn [fst snd] in *. split.
    + rewrite H1. unfold add_mode. rewrite <- app_assoc. reflexivity.
    + cbn [map]. rewrite <- H2. f_equal. unfold add_mode. rewrite calib_app. unfold calib_of. cbn. rewrite String.eqb_refl. reflexivity.
Qed.
Lemma calib_in {C} (modes : list (string * C)) name c : NoDup (map fst modes) -> In (name, c) modes -> calib_of modes name = Some c.
Proof.
  induction modes as [|[n' c'] t IH]; intros Hn Hi; [destruct Hi|]. cbn in Hn. inversion Hn as [|? ? Hni Hnt]; subst.
  change ((n', c') :: t) with ([(n', c')] ++ t)%list. rewrite calib_app. destruct Hi as [E|Hi].
  - injection E as -> ->. assert (calib_of t name = None).
    { unfold calib_of. destruct (find _ (rev t)) as [[m x]|] eqn:F; [|reflexivity]. exfalso. apply find_some in F. destruct F as [F1 F2]. apply String.eqb_eq in F2. cbn in F2. subst m.
      apply Hni. apply in_map_iff. exists (name, x). split; [reflexivity|apply in_rev; exact F1]. }
    rewrite H. unfold calib_of. cbn. rewrite String.eqb_refl. reflexivity.
  - rewrite (IH Hnt Hi). reflexivity.
Qed.
Lemma calib_notin {C} (modes : list (string * C)) name : ~ In name (map fst modes) -> calib_of modes name = None.
Proof.
  intros H. unfold calib_of. destruct (find _ (rev modes)) as [[m x]|] eqn:F; [|reflexivity]. exfalso. apply find_some in F. destruct F as [F1 F2]. apply String.eqb_eq in F2. cbn in F2. subst m.
  apply H. apply in_map_iff. exists (name, x). split; [reflexivity|apply in_rev; exact F1].
Qed.

Lemma nodup_firstn {A} (l : list A) : forall n, NoDup l -> NoDup (firstn n l).
Proof.
  induction l as [|x t IH]; intros [|n] H; cbn; try constructor; inversion H; subst; [|apply IH; assumption].
  intros K. match goal with Hn : ~ In x t |- _ => apply Hn end. rewrite <- (firstn_skipn n t). apply in_or_app. left. exact K.
Qed.
