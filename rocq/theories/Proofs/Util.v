(** Proofs about the numerical helpers. *)
From Coq Require Import QArith Qround Qabs Lqa Sorting.Sorted Permutation.
From Verif.Base Require Import Py PyLemmas Fn.
From Verif.Model Require Import Richness Vlim Util.
From Verif.Spec Require Import Util.
From Verif.Proofs Require Import Richness Vlim Zlambda Centering.
Local Open Scope nat_scope.

(** * interpol *)
Lemma nth_some {A} (l : list A) i : i < List.length l -> exists x, nth_error l i = Some x.
Proof. intros H. destruct (nth_error l i) eqn:E; [eauto|]. apply nth_error_None in E. lia. Qed.

Lemma interpol_seg v x xo : StronglySorted Qlt x -> List.length v = List.length x -> 2 <= List.length x ->
  exists i x0 x1 v0 v1, nth_error x i = Some x0 /\ nth_error x (S i) = Some x1 /\ nth_error v i = Some v0 /\ nth_error v (S i) = Some v1 /\
    interpol v x xo = Ok ((xo - x0) * (v1 - v0) / (x1 - x0) + v0)%Q /\ (x0 < x1)%Q /\ (i = 0 \/ (x0 < xo)%Q) /\ (S (S i) = List.length x \/ (xo <= x1)%Q).
Proof.
  intros Hs Hl Hm. set (m := List.length x) in *. set (p := ss_left x xo).
  set (i := Nat.min (p - 1) (m - 2)).
  assert (Hi : clipZ 0 (Z.of_nat m - 2) (Z.of_nat p - 1) = Z.of_nat i) by (unfold clipZ, i; lia).
  assert (i < m - 1) by (unfold i; lia).
  destruct (nth_some x i) as [x0 E0]; [fold m; lia|]. destruct (nth_some x (S i)) as [x1 E1]; [fold m; lia|].
  destruct (nth_some v i) as [v0 F0]; [lia|]. destruct (nth_some v (S i)) as [v1 F1]; [lia|].
  exists i, x0, x1, v0, v1. repeat split; try assumption.
  - unfold interpol. rewrite Hl. fold p. cbv zeta. rewrite Hi. replace (Z.of_nat i + 1)%Z with (Z.of_nat (S i)) by lia.
    rewrite !py_index_nat, E0, E1, F0, F1. reflexivity.
  - refine (SS_nth _ _ _ _ _ _ Hs _ E0 E1). lia.
  - destruct (Nat.eq_dec i 0) as [->|Hn]; [left; reflexivity|right].
    apply (ss_left_spec x xo i x0 (SSlt_le _ Hs) E0). fold p. unfold i in *. lia.
  - destruct (Nat.eq_dec (S (S i)) m) as [e|Hn]; [left; exact e|right]. apply Qnot_lt_le. intros Hc.
    apply (ss_left_spec x xo (S i) x1 (SSlt_le _ Hs) E1) in Hc. fold p in Hc. unfold i in *. lia.
Qed.

Lemma seg_line x0 x1 v0 v1 xo : (x0 < x1)%Q -> on_line x0 v0 x1 v1 xo ((xo - x0) * (v1 - v0) / (x1 - x0) + v0)%Q.
Proof. intros H. unfold on_line. field. lra. Qed.
Lemma seg_right x0 x1 v0 v1 xo : (x0 < x1)%Q -> (xo == x1)%Q -> ((xo - x0) * (v1 - v0) / (x1 - x0) + v0 == v1)%Q.
Proof. intros H He. rewrite He. field. lra. Qed.
Lemma seg_left x0 x1 v0 v1 xo : (x0 < x1)%Q -> (xo == x0)%Q -> ((xo - x0) * (v1 - v0) / (x1 - x0) + v0 == v0)%Q.
Proof. intros H He. rewrite He. field. lra. Qed.
Lemma on_line_left x0 v0 x1 v1 xo y : (xo == x0)%Q -> (y == v0)%Q -> on_line x0 v0 x1 v1 xo y.
Proof. intros H1 H2. unfold on_line. rewrite H1, H2. ring. Qed.

(** general form: with any segment j that contains the query (or is the outer one on its side) *)
Lemma interpol_on v x xo j a b va vb : StronglySorted Qlt x -> List.length v = List.length x ->
  nth_error x j = Some a -> nth_error x (S j) = Some b -> nth_error v j = Some va -> nth_error v (S j) = Some vb ->
  (j = 0 \/ (a <= xo)%Q) -> (S (S j) = List.length x \/ (xo <= b)%Q) ->
  exists y, interpol v x xo = Ok y /\ on_line a va b vb xo y.
Proof.
  intros Hs Hl Ha Hb Hva Hvb H1 H2.
  assert (Hj : S j < List.length x) by (apply nth_error_Some; congruence).
  destruct (interpol_seg v x xo Hs Hl) as (i & x0 & x1 & v0 & v1 & E0 & E1 & F0 & F1 & He & Hlt & G1 & G2); [lia|].
  eexists; split; [exact He|].
  destruct (lt_eq_lt_dec i j) as [[Hij| ->]|Hij].
  - assert (Hq : (xo <= x1)%Q) by (destruct G2 as [G2|G2]; [lia|exact G2]).
    assert (Hq2 : (a <= xo)%Q) by (destruct H1 as [->|H1]; [lia|exact H1]).
    destruct (Nat.eq_dec (S i) j) as [<-|Hn].
    + assert (x1 = a) by congruence. assert (v1 = va) by congruence. subst. apply on_line_left; [lra|]. apply seg_right; lra.
    + assert (x1 < a)%Q by (refine (SS_nth _ _ _ _ _ _ Hs _ E1 Ha); lia). lra.
  - assert (x0 = a) by congruence. assert (x1 = b) by congruence. assert (v0 = va) by congruence. assert (v1 = vb) by congruence. subst.
    apply seg_line, Hlt.
  - assert (Hq : (x0 < xo)%Q) by (destruct G1 as [->|G1]; [lia|exact G1]).
    assert (Hil : S i < List.length x) by (apply nth_error_Some; congruence).
    assert (Hq2 : (xo <= b)%Q) by (destruct H2 as [H2|H2]; [lia|exact H2]).
    destruct (Nat.eq_dec (S j) i) as [<-|Hn]; [assert (x0 = b) by congruence; subst; lra|].
    assert (b < x0)%Q by (refine (SS_nth _ _ _ _ _ _ Hs _ Hb E0); lia). lra.
Qed.

Lemma on_line_between a b va vb xo y : (a < b)%Q -> (a <= xo)%Q -> (xo <= b)%Q -> on_line a va b vb xo y ->
  (Qmin2 va vb <= y)%Q /\ (y <= Qmax2 va vb)%Q.
Proof.
  intros Hab H1 H2 H. unfold on_line in H. unfold Qmin2, Qmax2.
  destruct (Qle_bool va vb) eqn:E; [apply Qle_bool_iff in E|apply Qle_bool_false in E].
  - assert (0 <= (xo - a) * (vb - va))%Q by (apply Qmult_le_0_compat; lra).
    assert (0 <= (b - xo) * (vb - va))%Q by (apply Qmult_le_0_compat; lra).
    split; apply Qnot_lt_le; intros Hc; nra.
  - assert (0 <= (xo - a) * (va - vb))%Q by (apply Qmult_le_0_compat; lra).
    assert (0 <= (b - xo) * (va - vb))%Q by (apply Qmult_le_0_compat; lra).
    split; apply Qnot_lt_le; intros Hc; nra.
Qed.
Lemma on_line_at_left a b va vb xo y : (a < b)%Q -> (xo == a)%Q -> on_line a va b vb xo y -> (y == va)%Q.
Proof. intros H He Ho. unfold on_line in Ho. rewrite He in Ho. assert ((y - va) * (b - a) == 0)%Q by lra. apply Qmult_integral in H0. lra. Qed.
Lemma on_line_at_right a b va vb xo y : (a < b)%Q -> (xo == b)%Q -> on_line a va b vb xo y -> (y == vb)%Q.
Proof. intros H He Ho. unfold on_line in Ho. rewrite He in Ho. assert ((y - vb) * (b - a) == 0)%Q by lra. apply Qmult_integral in H0. lra. Qed.

(** * make_nodes *)
Definition step_at (a s : Q) (i : nat) : Q := (a + inject_Z (Z.of_nat i) * s)%Q.
Lemma step_S a s i : (step_at a s (S i) == step_at a s i + s)%Q.
Proof. unfold step_at. rewrite Nat2Z.inj_succ. unfold Z.succ. rewrite inject_Z_plus. change (inject_Z 1) with 1%Q. ring. Qed.
Lemma step_lt a s i j : (0 < s)%Q -> i < j -> (step_at a s i < step_at a s j)%Q.
Proof.
  intros Hs H. unfold step_at. assert (inject_Z (Z.of_nat i) < inject_Z (Z.of_nat j))%Q by (rewrite <- Zlt_Qlt; lia).
  assert (inject_Z (Z.of_nat i) * s < inject_Z (Z.of_nat j) * s)%Q by (apply Qmult_lt_compat_r; assumption). lra.
Qed.
Lemma SS_map_seq (f : nat -> Q) n : forall i, (forall k, i <= k -> (f k < f (S k))%Q) -> (forall k j, i <= k < j -> (f k < f j)%Q) ->
  StronglySorted Qlt (map f (seq i n)).
Proof.
  induction n as [|n IH]; intros i H1 H2; cbn; constructor.
  - apply IH; intros; [apply H1|apply H2]; lia.
  - apply Forall_forall. intros y Hy. apply in_map_iff in Hy. destruct Hy as (k & <- & Hk). apply in_seq in Hk. apply H2. lia.
Qed.
Lemma steps_sorted a s n : (0 < s)%Q -> StronglySorted Qlt (map (step_at a s) (seq 0 n)).
Proof. intros Hs. apply SS_map_seq; intros; apply step_lt; (exact Hs || lia). Qed.
Lemma SS_app {A} (R : A -> A -> Prop) l m : StronglySorted R l -> StronglySorted R m -> (forall x y, In x l -> In y m -> R x y) -> StronglySorted R (l ++ m).
Proof.
  induction 1 as [|x l Hs IH Hf]; intros Hm H; cbn; [exact Hm|]. constructor.
  - apply IH; [exact Hm|]. intros; apply H; [right|]; assumption.
  - apply Forall_app. split; [exact Hf|]. apply Forall_forall. intros y Hy. apply H; [left; reflexivity|exact Hy].
Qed.
Lemma arange_eq a b s : arange a b s = map (step_at a s) (seq 0 (Z.to_nat (Qceiling ((b - a) / s)))).
Proof. reflexivity. Qed.
(** the number of steps: the last value is below b, the next would not be *)
Lemma arange_count a b s : (0 < s)%Q -> (a < b)%Q -> exists k, Z.to_nat (Qceiling ((b - a) / s)) = S k /\ (step_at a s k < b)%Q /\ (b <= step_at a s k + s)%Q.
Proof.
  intros Hs Hab. set (q := ((b - a) / s)%Q).
  assert (Hq : (0 < q)%Q) by (unfold q; apply Qlt_shift_div_l; lra).
  assert (Hqs : (q * s == b - a)%Q) by (unfold q; field; lra).
  pose proof (Qle_ceiling q) as H1. pose proof (Qceiling_lt q) as H2.
  assert (Hc : (0 < Qceiling q)%Z) by (rewrite Zlt_Qlt; change (inject_Z 0) with 0%Q; lra).
  exists (Z.to_nat (Qceiling q) - 1). split; [lia|]. unfold step_at.
  replace (Z.of_nat (Z.to_nat (Qceiling q) - 1)) with (Qceiling q - 1)%Z by lia.
  assert (inject_Z (Qceiling q - 1) * s < q * s)%Q by (apply Qmult_lt_compat_r; assumption).
  assert (q * s <= inject_Z (Qceiling q) * s)%Q by (apply Qmult_le_compat_r; lra).
  unfold Zminus in *. rewrite inject_Z_plus in *. change (inject_Z (- (1))) with (-1#1)%Q in *. split; lra.
Qed.
Lemma arange_empty a b s : (0 < s)%Q -> (b <= a)%Q -> arange a b s = [].
Proof.
  intros Hs Hab. rewrite arange_eq. set (q := ((b - a) / s)%Q).
  assert (Hq : (q <= 0)%Q) by (unfold q; apply Qle_shift_div_r; lra).
  pose proof (Qceiling_lt q) as H2. assert (Hc : (Qceiling q - 1 < 0)%Z) by (rewrite Zlt_Qlt; change (inject_Z 0) with 0%Q; lra).
  replace (Z.to_nat (Qceiling q)) with 0 by lia. reflexivity.
Qed.
Lemma list_max_sorted l x : StronglySorted Qlt (l ++ [x]) -> list_max (l ++ [x]) = Ok x.
Proof.
  intros H. destruct l as [|y l]; cbn in *; [reflexivity|]. rewrite fold_max_last by exact H. f_equal.
  clear. induction l as [|z l IH]; cbn; [reflexivity|]. destruct (l ++ [x]) eqn:E; [destruct l; discriminate|]. exact IH.
Qed.
Lemma set_last_app {A} (l : list A) x y : set_last (l ++ [x]) y = l ++ [y].
Proof.
  unfold set_last. rewrite app_length. cbn [List.length]. replace (List.length l + 1 - 1) with (List.length l) by lia.
  induction l as [|z l IH]; cbn; [reflexivity|]. rewrite IH. reflexivity.
Qed.
Lemma seq_snoc n : seq 0 (S n) = seq 0 n ++ [n].
Proof. rewrite seq_S. reflexivity. Qed.

(** structure of the result: k regular nodes, the end, and the end of the range if it is beyond *)
Lemma make_nodes_shape z0 z1 s m : (0 < s)%Q -> (z0 < node_end z1 m)%Q -> let mx := node_end z1 m in
  exists k, make_nodes z0 z1 s m = Ok (map (step_at z0 s) (seq 0 k) ++ [mx] ++ (if Qlt_bool mx z1 then [z1] else [])) /\
    (forall j, S j = k -> (Qmin2 s (s * (1#2) + (1#100)) < mx - step_at z0 s j)%Q /\ (mx - step_at z0 s j <= s * (3#2) + (1#100))%Q) /\
    (k = 0 <-> (mx - z0 <= s)%Q /\ (mx - z0 <= s * (1#2) + (1#100))%Q).
Proof.
  intros Hs Hlt mx. destruct (arange_count z0 mx s Hs Hlt) as (n & Hn & H1 & H2).
  unfold make_nodes. fold mx. cbv zeta. rewrite arange_eq, Hn, seq_snoc, map_app. cbn [map].
  assert (Hso : StronglySorted Qlt (map (step_at z0 s) (seq 0 n) ++ [step_at z0 s n])).
  { pose proof (steps_sorted z0 s (S n) Hs) as H. rewrite seq_snoc, map_app in H. exact H. }
  rewrite list_max_sorted by exact Hso. cbn [bind].
  assert (Hmin1 : (Qmin2 s (s * (1#2) + (1#100)) <= s)%Q /\ (Qmin2 s (s * (1#2) + (1#100)) <= s * (1#2) + (1#100))%Q).
  { unfold Qmin2. destruct (Qle_bool _ _) eqn:E; [apply Qle_bool_iff in E|apply Qle_bool_false in E]; lra. }
  destruct (Qlt_bool (s * (1#2) + (1#100)) (mx - step_at z0 s n)) eqn:E; [apply Qlt_bool_iff in E|apply Qlt_bool_false in E].
  - exists (S n). split; [|split].
    + rewrite seq_snoc, map_app. cbn [map]. f_equal. destruct (Qlt_bool mx z1); rewrite <- !app_assoc; reflexivity.
    + intros j [= ->]. lra.
    + split; [discriminate|]. intros [_ H]. assert (z0 <= step_at z0 s n)%Q; [|lra].
      unfold step_at. assert (0 <= inject_Z (Z.of_nat n))%Q by (change 0%Q with (inject_Z 0); rewrite <- Zle_Qle; lia).
      assert (0 <= inject_Z (Z.of_nat n) * s)%Q by (apply Qmult_le_0_compat; lra). lra.
  - exists n. split; [|split].
    + rewrite set_last_app. f_equal. destruct (Qlt_bool mx z1); rewrite <- ?app_assoc; reflexivity.
    + intros j <-. rewrite step_S in *. lra.
    + split.
      * intros ->. unfold step_at in *. change (inject_Z (Z.of_nat 0)) with 0%Q in *. lra.
      * intros [H3 H4]. destruct n as [|n]; [reflexivity|]. exfalso. rewrite step_S in *.
        assert (z0 <= step_at z0 s n)%Q; [|lra].
        unfold step_at. assert (0 <= inject_Z (Z.of_nat n))%Q by (change 0%Q with (inject_Z 0); rewrite <- Zle_Qle; lia).
        assert (0 <= inject_Z (Z.of_nat n) * s)%Q by (apply Qmult_le_0_compat; lra). lra.
Qed.

Lemma node_end_le z1 m : (0 <= z1)%Q -> (node_end z1 m <= z1)%Q.
Proof.
  intros H. unfold node_end. destruct m as [m|]; [|lra]. destruct (Qlt_bool m 0); [lra|]. unfold clipQ.
  unfold Qmin2. destruct (Qle_bool (Qmax2 m 0) z1) eqn:E; [apply Qle_bool_iff in E; exact E|lra].
Qed.

Lemma shape_sorted z0 z1 s k mx : (0 < s)%Q -> (forall j, S j = k -> (step_at z0 s j < mx)%Q) ->
  StronglySorted Qlt (map (step_at z0 s) (seq 0 k) ++ [mx] ++ (if Qlt_bool mx z1 then [z1] else [])).
Proof.
  intros Hs H.
  assert (Hm : forall x, In x (map (step_at z0 s) (seq 0 k)) -> (x < mx)%Q).
  { intros x Hx. apply in_map_iff in Hx. destruct Hx as (i & <- & Hi). apply in_seq in Hi. destruct k as [|k]; [lia|].
    specialize (H k eq_refl). destruct (Nat.eq_dec i k) as [->|Hn]; [exact H|]. assert (step_at z0 s i < step_at z0 s k)%Q by (apply step_lt; [exact Hs|lia]). lra. }
  apply SS_app.
  - apply steps_sorted, Hs.
  - destruct (Qlt_bool mx z1) eqn:E; cbn; repeat constructor. apply Qlt_bool_iff, E.
  - intros x y Hx Hy. specialize (Hm x Hx). destruct (Qlt_bool mx z1) eqn:E; cbn in Hy.
    + apply Qlt_bool_iff in E. destruct Hy as [<-|[<-|[]]]; lra.
    + destruct Hy as [<-|[]]. lra.
Qed.

(** * cic *)
Definition hits (i : Z) (l : list (Z * Q)) : Q := Qsum (map snd (filter (fun ja => (fst ja =? i)%Z) l)).
Lemma hits_app i l m : (hits i (l ++ m) == hits i l + hits i m)%Q.
Proof. unfold hits. rewrite filter_app, map_app, Qsum_app. reflexivity. Qed.
Lemma hits_cons i j a l : (hits i ((j, a) :: l) == (if (j =? i)%Z then a else 0) + hits i l)%Q.
Proof. unfold hits. cbn [filter fst]. destruct (j =? i)%Z; cbn [map Qsum snd]; ring. Qed.

Lemma set_nth_nth (l : list Q) i v k : i < List.length l -> nth k (set_nth l i v) 0%Q = if Nat.eqb k i then v else nth k l 0%Q.
Proof.
  revert i k; induction l as [|x l IH]; intros [|i] [|k] H; cbn in *; try lia; try reflexivity. apply IH. lia.
Qed.
Lemma add_at_spec l : forall f, (forall ja, In ja l -> (0 <= fst ja < Z.of_nat (List.length f))%Z) ->
  exists f', add_at f l = Ok f' /\ List.length f' = List.length f /\ forall i, i < List.length f -> (nth i f' 0 == nth i f 0 + hits (Z.of_nat i) l)%Q.
Proof.
  induction l as [|[j a] l IH]; intros f H; cbn [add_at].
  - exists f. repeat split; try reflexivity. intros i _. unfold hits. cbn. lra.
  - assert (Hj : (0 <= j < Z.of_nat (List.length f))%Z) by (apply (H (j, a)); left; reflexivity).
    unfold add_at1. cbn [fst snd]. replace (j <? 0)%Z with false by (symmetry; apply Z.ltb_ge; lia).
    replace (Z.of_nat (List.length f) <=? j)%Z with false by (symmetry; apply Z.leb_gt; lia). cbv zeta. replace (j <? 0)%Z with false by (symmetry; apply Z.ltb_ge; lia). cbn [orb bind].
    destruct (IH (set_nth f (Z.to_nat j) (nth (Z.to_nat j) f 0 + a)%Q)) as (f' & E & Hl & Hv).
    { intros ja Hja. rewrite set_nth_length. apply H. right; exact Hja. }
    exists f'. rewrite set_nth_length in *. split; [exact E|]. split; [exact Hl|].
    intros i Hi. rewrite Hv by exact Hi. rewrite set_nth_nth by lia. rewrite hits_cons.
    destruct (Nat.eqb_spec i (Z.to_nat j)) as [->|Hn].
    + replace (j =? Z.of_nat (Z.to_nat j))%Z with true by (symmetry; apply Z.eqb_eq; lia). lra.
    + replace (j =? Z.of_nat i)%Z with false by (symmetry; apply Z.eqb_neq; lia). lra.
Qed.

(** position = cell + fraction *)
Lemma Qtrunc_floor p : (0 <= p)%Q -> Qtrunc p = Qfloor p.
Proof.
  intros H. destruct p as [a b]. unfold Qtrunc. cbn. apply Z.quot_div_nonneg; [|lia]. unfold Qle in H. cbn in H. lia.
Qed.
Lemma trunc_spec p n : (0 <= p)%Q -> (p < inject_Z n)%Q -> exists f, (p == inject_Z (Qtrunc p) + f)%Q /\ (0 <= f)%Q /\ (f < 1)%Q /\ (0 <= Qtrunc p < n)%Z.
Proof.
  intros H0 Hn. rewrite Qtrunc_floor by exact H0. pose proof (Qfloor_le p) as H1. pose proof (Qlt_floor p) as H2.
  rewrite inject_Z_plus in H2. change (inject_Z 1) with 1%Q in H2.
  exists (p - inject_Z (Qfloor p))%Q. repeat split; try lra.
  - apply Z.le_trans with (Qfloor 0); [reflexivity|]. apply Qfloor_resp_le. exact H0.
  - rewrite Zlt_Qlt. lra.
Qed.

Lemma Qmax2_cases a b : ((a <= b)%Q /\ Qmax2 a b = b) \/ ((b < a)%Q /\ Qmax2 a b = a).
Proof. unfold Qmax2. destruct (Qle_bool a b) eqn:E; [left; apply Qle_bool_iff in E|right; apply Qle_bool_false in E]; auto. Qed.
Lemma Qmin2_cases a b : ((a <= b)%Q /\ Qmin2 a b = a) \/ ((b < a)%Q /\ Qmin2 a b = b).
Proof. unfold Qmin2. destruct (Qle_bool a b) eqn:E; [left; apply Qle_bool_iff in E|right; apply Qle_bool_false in E]; auto. Qed.
Ltac minmax := repeat match goal with
  | |- context [Qmax2 ?a ?b] => destruct (Qmax2_cases a b) as [[? ->]|[? ->]]
  | |- context [Qmin2 ?a ?b] => destruct (Qmin2_cases a b) as [[? ->]|[? ->]]
  | H : context [Qmax2 ?a ?b] |- _ => let E := fresh in destruct (Qmax2_cases a b) as [[? E]|[? E]]; rewrite E in *; clear E
  | H : context [Qmin2 ?a ?b] |- _ => let E := fresh in destruct (Qmin2_cases a b) as [[? E]|[? E]]; rewrite E in *; clear E end.

(** the overlap of the box with the cell at distance d of the cell that holds the sample *)
Definition ov (f : Q) (d : Z) : Q :=
  if (d =? 0)%Z then (1 - Qabs ((1#2) - f))%Q else if (d =? -1)%Z then Qmax2 0 ((1#2) - f)%Q else if (d =? 1)%Z then Qmax2 0 (f - (1#2))%Q else 0%Q.
Lemma Qabs_cases a : ((0 <= a)%Q /\ (Qabs a == a)%Q) \/ ((a < 0)%Q /\ (Qabs a == - a)%Q).
Proof.
  destruct (Qlt_le_dec a 0) as [H|H]; [right|left]; (split; [exact H|]). - apply Qabs_neg. lra. - apply Qabs_pos, H.
Qed.
Lemma Zge_Q a b : (a + 2 <= b)%Z -> (inject_Z a + 2 <= inject_Z b)%Q.
Proof. intros H. rewrite Zle_Qle, inject_Z_plus in H. exact H. Qed.
Lemma overlap_ov p k1 f k : (p == inject_Z k1 + f)%Q -> (0 <= f)%Q -> (f < 1)%Q -> (overlap p k == ov f (k - k1))%Q.
Proof.
  intros Hp H0 H1. unfold overlap, ov.
  destruct (Z.eqb_spec (k - k1) 0) as [E|N0]; [|destruct (Z.eqb_spec (k - k1) (-1)) as [E|N1]; [|destruct (Z.eqb_spec (k - k1) 1) as [E|N2]]].
  - replace k with k1 by lia. destruct (Qabs_cases ((1#2) - f)) as [[? Ha]|[? Ha]]; rewrite Ha; minmax; lra.
  - replace k with (k1 + -1)%Z by lia. rewrite inject_Z_plus. change (inject_Z (-1)) with (-1#1)%Q. minmax; lra.
  - replace k with (k1 + 1)%Z by lia. rewrite inject_Z_plus. change (inject_Z 1) with 1%Q. minmax; lra.
  - destruct (Z_lt_le_dec k k1) as [Hk|Hk].
    + assert (Hz : (k + 2 <= k1)%Z) by lia. apply Zge_Q in Hz. minmax; lra.
    + assert (Hz : (k1 + 2 <= k)%Z) by lia. apply Zge_Q in Hz. minmax; lra.
Qed.

Ltac zcases := repeat match goal with
  | |- context [(?a =? ?b)%Z] => destruct (Z.eqb_spec a b); try lia end.
Lemma Qlt_bool_cases a b : ((a < b)%Q /\ Qlt_bool a b = true) \/ ((b <= a)%Q /\ Qlt_bool a b = false).
Proof. destruct (Qlt_bool a b) eqn:E; [left; apply Qlt_bool_iff in E|right; apply Qlt_bool_false in E]; auto. Qed.

Lemma axis_hits iso n p k : (0 <= p)%Q -> (p < inject_Z n)%Q -> (0 <= k < n)%Z -> (hits k (axis iso n p) == weight1 iso n p k)%Q.
Proof.
  intros H0 Hn Hk. destruct (trunc_spec p n H0 Hn) as (f & Hp & Hf0 & Hf1 & Hr). set (k1 := Qtrunc p) in *.
  assert (Hd : (inject_Z k1 + (1#2) - p == (1#2) - f)%Q) by (rewrite Hp at 1; ring).
  assert (Ha : (Qabs (inject_Z k1 + (1#2) - p) == Qabs ((1#2) - f))%Q) by (rewrite Hd; reflexivity).
  unfold axis. fold k1. cbv zeta.
  assert (Hb : Qlt_bool (inject_Z k1 + (1#2) - p) 0 = Qlt_bool ((1#2) - f) 0).
  { destruct (Qlt_bool_cases ((1#2) - f) 0) as [[? ->]|[? ->]]; [apply Qlt_bool_iff|apply Qlt_bool_false]; lra. }
  rewrite Hb. unfold weight1, overlap_ring. 
  destruct iso; rewrite ?(overlap_ov p k1 f) by assumption; unfold ov.
  - destruct (Qlt_bool_cases ((1#2) - f) 0) as [[Hc ->]|[Hc ->]]; zcases; unfold hits; cbn [filter fst]; zcases; cbn [map snd Qsum]; rewrite ?Ha; destruct (Qabs_cases ((1#2) - f)) as [[? Hq]|[? Hq]]; rewrite ?Hq; minmax; lra.
  - destruct (Qlt_bool_cases ((1#2) - f) 0) as [[Hc ->]|[Hc ->]]; zcases; unfold hits; cbn [filter fst]; zcases; cbn [map snd Qsum]; rewrite ?Ha; destruct (Qabs_cases ((1#2) - f)) as [[? Hq]|[? Hq]]; rewrite ?Hq; minmax; lra.
Qed.

Lemma axis_form iso n p : (0 <= p)%Q -> (p < inject_Z n)%Q -> exists k1 w1 k2 w2, axis iso n p = [(k1, w1); (k2, w2)] /\
  (0 <= k1 < n)%Z /\ (0 <= k2 < n)%Z /\ (0 <= w1)%Q /\ (0 <= w2)%Q /\ (w1 + w2 <= 1)%Q /\ (iso = false -> w1 + w2 == 1)%Q /\
  (((1#2) <= p)%Q -> (p + (1#2) <= inject_Z n)%Q -> (w1 + w2 == 1)%Q).
Proof.
  intros H0 Hn. destruct (trunc_spec p n H0 Hn) as (f & Hp & Hf0 & Hf1 & Hr). set (k1 := Qtrunc p) in *.
  assert (Hd : (inject_Z k1 + (1#2) - p == (1#2) - f)%Q) by (rewrite Hp at 1; ring).
  unfold axis. fold k1. cbv zeta.
  assert (Hab : (Qabs (inject_Z k1 + (1#2) - p) <= 1#2)%Q) by (rewrite Hd; apply Qabs_Qle_condition; split; lra).
  assert (Hab0 : (0 <= Qabs (inject_Z k1 + (1#2) - p))%Q) by apply Qabs_nonneg.
  destruct (Qlt_bool_cases (inject_Z k1 + (1#2) - p) 0) as [[Hc ->]|[Hc ->]].
  - replace (k1 - 1 + 2 =? -1)%Z with false by (symmetry; apply Z.eqb_neq; lia).
    destruct (Z.eqb_spec (k1 - 1 + 2) n) as [E|E]; do 4 eexists; (split; [reflexivity|]); repeat split; try lia; try lra; destruct iso; try lra; try discriminate.
    intros _ Hx. exfalso. assert (Hz : (inject_Z n == inject_Z k1 + 1)%Q) by (rewrite <- E; replace (k1 - 1 + 2)%Z with (k1 + 1)%Z by lia; rewrite inject_Z_plus; reflexivity). lra.
  - destruct (Z.eqb_spec (k1 - 1) (-1)) as [E|E].
    + replace (n - 1 =? n)%Z with false by (symmetry; apply Z.eqb_neq; lia).
      do 4 eexists; (split; [reflexivity|]); repeat split; try lia; try lra; destruct iso; try lra; try discriminate.
      intros Hx _. assert (Hz : k1 = 0%Z) by lia. rewrite Hz in *. change (inject_Z 0) with 0%Q in *.
      assert (Hq : (0 + (1#2) - p == 0)%Q) by lra. rewrite Hq. cbn. lra.
    + replace (k1 - 1 =? n)%Z with false by (symmetry; apply Z.eqb_neq; lia).
      do 4 eexists; (split; [reflexivity|]); repeat split; try lia; try lra.
Qed.

Lemma corners_len iso ns ps : List.length ns = List.length ps -> List.length (corners iso ns ps) = 2 ^ List.length ns.
Proof.
  revert ps; induction ns as [|n ns IH]; intros [|p ps] H; try discriminate; cbn [corners List.length]; [reflexivity|].
  injection H as H. rewrite Nat.pow_succ_r', <- (IH ps H). generalize (corners iso ns ps). intros l.
  assert (Hax : List.length (axis iso n p) = 2).
  { unfold axis. cbv zeta. destruct (_ =? -1)%Z; destruct (_ =? n)%Z; reflexivity. }
  induction l as [|r l IHl]; cbn [flat_map]; [reflexivity|]. rewrite app_length, map_length, IHl, Hax. cbn [List.length]. lia.
Qed.
Lemma prod_pos ns ps : inside ns ps -> (0 < fold_right Z.mul 1 ns)%Z.
Proof.
  induction 1 as [|n p ns ps [H1 H2] _ IH]; cbn; [lia|]. assert (0 < n)%Z; [|lia]. rewrite Zlt_Qlt. change (inject_Z 0) with 0%Q. lra.
Qed.
Lemma corners_in iso ns ps : inside ns ps -> forall jw, In jw (corners iso ns ps) -> (0 <= fst jw < fold_right Z.mul 1 ns)%Z /\ (0 <= snd jw)%Q.
Proof.
  induction 1 as [|n p ns ps [H1 H2] Hi IH]; intros jw Hj; cbn [corners] in Hj.
  - destruct Hj as [<-|[]]. cbn. split; [lia|lra].
  - apply in_flat_map in Hj. destruct Hj as (r & Hr & Hj). apply in_map_iff in Hj. destruct Hj as (kw & <- & Hk). destruct (IH r Hr) as [Ha Hb].
    destruct (axis_form iso n p H1 H2) as (k1 & w1 & k2 & w2 & E & Hk1 & Hk2 & Hw1 & Hw2 & _). rewrite E in Hk. cbn [fst snd fold_right].
    split.
    + assert (0 <= fst kw < n)%Z by (destruct Hk as [<-|[<-|[]]]; assumption). nia.
    + apply Qmult_le_0_compat; [|exact Hb]. destruct Hk as [<-|[<-|[]]]; assumption.
Qed.
(** sum of the weights of a sample *)
Lemma corners_sum iso ns ps (g : Z -> Q -> Q) : List.length ns = List.length ps -> inside ns ps ->
  (Forall2 (fun n p => (Qsum (map snd (axis iso n p)) == 1)%Q) ns ps) -> (Qsum (map snd (corners iso ns ps)) == 1)%Q.
Proof.
  intros _ Hin H. revert Hin. induction H as [|n p ns ps Hs H IH]; intros Hin; cbn [corners]; [cbn; lra|].
  inversion Hin as [|? ? ? ? [Hp1 Hp2] Hin']; subst. specialize (IH Hin').
  destruct (axis_form iso n p Hp1 Hp2) as (k1 & w1 & k2 & w2 & E & _). rewrite E in *. cbn [map snd Qsum] in Hs.
  transitivity (Qsum (map snd (corners iso ns ps))); [|exact IH]. generalize (corners iso ns ps). intros l.
  induction l as [|r l IHl]; cbn [flat_map]; [reflexivity|]. rewrite map_app, Qsum_app, IHl. cbn [map snd fst Qsum].
  setoid_replace (w1 * snd r + (w2 * snd r + 0))%Q with ((w1 + (w2 + 0)) * snd r)%Q by ring. rewrite Hs. ring.
Qed.
Lemma corners_sum_le iso ns ps : inside ns ps -> (Qsum (map snd (corners iso ns ps)) <= 1)%Q.
Proof.
  induction 1 as [|n p ns ps [Hp1 Hp2] Hin IH]; cbn [corners]; [cbn; lra|].
  destruct (axis_form iso n p Hp1 Hp2) as (k1 & w1 & k2 & w2 & E & _ & _ & Hw1 & Hw2 & Hle & _). rewrite E.
  apply Qle_trans with (Qsum (map snd (corners iso ns ps))); [|exact IH].
  pose proof (corners_in iso ns ps Hin) as Hc. revert Hc. generalize (corners iso ns ps). intros l Hc.
  induction l as [|r l IHl]; cbn [flat_map]; [lra|]. rewrite map_app, Qsum_app. cbn [map snd fst Qsum].
  assert (Hr : (0 <= snd r)%Q) by (apply Hc; left; reflexivity).
  assert (0 <= (1 - (w1 + w2)) * snd r)%Q by (apply Qmult_le_0_compat; lra).
  specialize (IHl (fun jw h => Hc jw (or_intror h))). cbn [map snd fst] in IHl. lra.
Qed.

Lemma hits_corners iso ns ps ks : inside ns ps -> cell_of ns ks -> (hits (flat ns ks) (corners iso ns ps) == weight iso ns ps ks)%Q.
Proof.
  intros H; revert ks; induction H as [|n p ns ps [Hp1 Hp2] Hin IH]; intros ks Hk; inversion Hk as [|? k ? ks' Hk1 Hk2]; subst; cbn [corners flat weight].
  - unfold hits. cbn. lra.
  - rewrite <- IH by exact Hk2. rewrite <- (axis_hits iso n p k Hp1 Hp2 Hk1).
    destruct (axis_form iso n p Hp1 Hp2) as (k1 & w1 & k2 & w2 & E & Hr1 & Hr2 & _). rewrite E.
    pose proof (corners_in iso ns ps Hin) as Hc. revert Hc. generalize (corners iso ns ps) (flat ns ks'). intros l r0 Hc.
    induction l as [|[r wr] l IHl]; cbn [flat_map]; [unfold hits at 1 3; cbn; ring|].
    rewrite hits_app, IHl by (intros; apply Hc; right; assumption). cbn [map fst snd]. rewrite !hits_cons.
    unfold hits at 1. cbn [filter map Qsum].
    assert (Hx : forall a, (0 <= a < n)%Z -> ((a + n * r =? k + n * r0) = (a =? k) && (r =? r0))%Z).
    { intros a Ha. destruct (Z.eqb_spec a k) as [->|Na]; cbn [andb].
      - destruct (Z.eqb_spec r r0) as [->|Nr]; [apply Z.eqb_refl|apply Z.eqb_neq; nia].
      - apply Z.eqb_neq. intros He. apply Na. assert (n * (r - r0) = k - a)%Z by lia. destruct (Z.lt_trichotomy r r0) as [?|[?|?]]; nia. }
    rewrite !Hx by assumption. change (hits k []) with 0%Q.
    destruct (k1 =? k)%Z, (k2 =? k)%Z, (r =? r0)%Z; cbn [andb]; ring.
Qed.

(** the contributions of all samples *)
Lemma Qsum_map_ext {A} (f g : A -> Q) l : (forall x, In x l -> (f x == g x)%Q) -> (Qsum (map f l) == Qsum (map g l))%Q.
Proof. induction l as [|x l IH]; intros H; cbn; [reflexivity|]. rewrite (H x (or_introl eq_refl)), IH by (intros; apply H; right; assumption). reflexivity. Qed.
Lemma Qsum_map_add {A} (f g : A -> Q) l : (Qsum (map (fun x => f x + g x) l) == Qsum (map f l) + Qsum (map g l))%Q.
Proof. induction l as [|x l IH]; cbn; [ring|]. rewrite IH. ring. Qed.
Lemma Qsum_swap {A B} (f : A -> B -> Q) l m : (Qsum (map (fun a => Qsum (map (f a) m)) l) == Qsum (map (fun b => Qsum (map (fun a => f a b) l)) m))%Q.
Proof.
  induction l as [|a l IH]; cbn [map Qsum]; [symmetry; induction m as [|b m IHm]; cbn in *; [reflexivity|rewrite IHm; ring]|].
  rewrite IH, <- Qsum_map_add. reflexivity.
Qed.
Lemma Qsum_nth_seq {A} (g : A -> Q) l d : Qsum (map (fun c => g (nth c l d)) (seq 0 (List.length l))) = Qsum (map g l).
Proof. f_equal. rewrite <- (map_map (fun c => nth c l d) g). f_equal. rewrite <- (map_nth_seq l d) at 2. reflexivity. Qed.
Lemma hits_sum i l : (hits i l == Qsum (map (fun ja => if (fst ja =? i)%Z then snd ja else 0%Q) l))%Q.
Proof. induction l as [|[j a] l IH]; [reflexivity|]. rewrite hits_cons, IH. reflexivity. Qed.
Lemma Qsum_flat_map {A} (f : A -> list Q) l : (Qsum (flat_map f l) == Qsum (map (fun a => Qsum (f a)) l))%Q.
Proof. induction l as [|a l IH]; cbn; [reflexivity|]. rewrite Qsum_app, IH. reflexivity. Qed.
Lemma map_flat_map {A B C} (g : B -> C) (f : A -> list B) l : map g (flat_map f l) = flat_map (fun a => map g (f a)) l.
Proof. induction l as [|a l IH]; cbn; [reflexivity|]. rewrite map_app, IH. reflexivity. Qed.

(** any sum over the contributions can be taken sample by sample *)
Lemma contribs_sum iso ns amount ss (h : Z -> Q) : (forall s, In s ss -> List.length ns = List.length (sa_pos s)) ->
  (Qsum (map (fun ja => h (fst ja) * snd ja) (contribs iso ns amount ss)) ==
   Qsum (map (fun s => amount s * Qsum (map (fun kw => h (fst kw) * snd kw) (corners iso ns (sa_pos s)))) ss))%Q.
Proof.
  intros Hl. unfold contribs. rewrite map_flat_map, Qsum_flat_map.
  transitivity (Qsum (map (fun c => Qsum (map (fun s => amount s * (h (fst (nth c (corners iso ns (sa_pos s)) (0%Z, 0%Q))) * snd (nth c (corners iso ns (sa_pos s)) (0%Z, 0%Q))))%Q ss)) (seq 0 (2 ^ List.length ns))))%Q.
  { apply Qsum_map_ext. intros c _. rewrite map_map. apply Qsum_map_ext. intros s _. cbn [fst snd]. ring. }
  rewrite Qsum_swap. apply Qsum_map_ext. intros s Hs. rewrite <- (corners_len iso ns (sa_pos s)) by (apply Hl, Hs).
  set (l := corners iso ns (sa_pos s)).
  transitivity (amount s * Qsum (map (fun c => h (fst (nth c l (0%Z, 0%Q))) * snd (nth c l (0%Z, 0%Q))) (seq 0 (List.length l))))%Q.
  { induction (seq 0 (List.length l)) as [|c cs IH]; cbn [map Qsum]; [ring|]. rewrite IH. ring. }
  rewrite (Qsum_nth_seq (fun kw => h (fst kw) * snd kw)%Q). reflexivity.
Qed.
Lemma contribs_hits iso ns amount ss i : (forall s, In s ss -> List.length ns = List.length (sa_pos s)) ->
  (hits i (contribs iso ns amount ss) == Qsum (map (fun s => amount s * hits i (corners iso ns (sa_pos s))) ss))%Q.
Proof.
  intros Hl. rewrite hits_sum.
  transitivity (Qsum (map (fun ja => (if (fst ja =? i)%Z then 1 else 0) * snd ja) (contribs iso ns amount ss)))%Q.
  { apply Qsum_map_ext. intros ja _. destruct (_ =? i)%Z; ring. }
  rewrite (contribs_sum iso ns amount ss (fun j => if (j =? i)%Z then 1 else 0)%Q Hl). apply Qsum_map_ext. intros s _.
  rewrite (hits_sum i). apply Qmult_comp; [reflexivity|]. apply Qsum_map_ext. intros kw _. destruct (_ =? i)%Z; ring.
Qed.
Lemma inside_len ns ps : inside ns ps -> List.length ns = List.length ps.
Proof. induction 1; cbn; congruence. Qed.
Lemma contribs_in iso ns amount ss : (forall s, In s ss -> inside ns (sa_pos s)) -> forall ja, In ja (contribs iso ns amount ss) ->
  (0 <= fst ja < Z.of_nat (grid_size ns))%Z.
Proof.
  intros H ja Hj. unfold contribs in Hj. apply in_flat_map in Hj. destruct Hj as (c & Hc & Hj). apply in_map_iff in Hj. destruct Hj as (s & <- & Hs).
  specialize (H s Hs). pose proof (prod_pos _ _ H). cbn [fst]. apply in_seq in Hc.
  assert (Hn : In (nth c (corners iso ns (sa_pos s)) (0%Z, 0%Q)) (corners iso ns (sa_pos s))).
  { apply nth_In. rewrite corners_len by (apply inside_len, H). lia. }
  destruct (corners_in iso ns _ H _ Hn) as [Ha _]. unfold grid_size. lia.
Qed.
Lemma cic_field iso ns amount ss : (forall s, In s ss -> inside ns (sa_pos s)) ->
  exists f, add_at (repeat 0%Q (grid_size ns)) (contribs iso ns amount ss) = Ok f /\ List.length f = grid_size ns /\
    forall i, i < grid_size ns -> (nth i f 0 == Qsum (map (fun s => amount s * hits (Z.of_nat i) (corners iso ns (sa_pos s))) ss))%Q.
Proof.
  intros H. destruct (add_at_spec (contribs iso ns amount ss) (repeat 0%Q (grid_size ns))) as (f & E & Hl & Hv).
  { rewrite repeat_length. apply contribs_in, H. }
  rewrite repeat_length in *. exists f. split; [exact E|]. split; [exact Hl|]. intros i Hi. rewrite (Hv i Hi).
  rewrite nth_repeat, contribs_hits by (intros s Hs; apply inside_len, H, Hs). ring.
Qed.
(** the sum of the whole field *)
Lemma add_at1_sum f ja f' : add_at1 f ja = Ok f' -> (Qsum f' == Qsum f + snd ja)%Q.
Proof.
  unfold add_at1. cbv zeta. set (j := if (fst ja <? 0)%Z then (fst ja + Z.of_nat (List.length f))%Z else fst ja).
  destruct ((j <? 0) || (Z.of_nat (List.length f) <=? j))%Z eqn:E; [discriminate|]. intros [= <-].
  apply orb_false_iff in E. destruct E as [E1 E2]. apply Z.ltb_ge in E1. apply Z.leb_gt in E2.
  assert (Hj : Z.to_nat j < List.length f) by lia. revert Hj. generalize (Z.to_nat j). clear.
  induction f as [|x f IH]; intros [|i] H; cbn in *; try lia; [ring|]. rewrite IH by lia. ring.
Qed.
Lemma add_at_sum l : forall f f', add_at f l = Ok f' -> (Qsum f' == Qsum f + Qsum (map snd l))%Q.
Proof.
  induction l as [|ja l IH]; intros f f' H; cbn [add_at] in H; [injection H as <-; cbn; ring|].
  destruct (add_at1 f ja) as [g|] eqn:E; [|discriminate]. cbn [bind] in H. rewrite (IH _ _ H), (add_at1_sum _ _ _ E). cbn [map Qsum]. ring.
Qed.
Lemma Qsum_repeat0 n : (Qsum (repeat 0%Q n) == 0)%Q.
Proof. induction n; cbn; [reflexivity|]. rewrite IHn. ring. Qed.
Lemma cic_sum iso ns amount ss f : (forall s, In s ss -> inside ns (sa_pos s)) ->
  add_at (repeat 0%Q (grid_size ns)) (contribs iso ns amount ss) = Ok f ->
  (Qsum f == Qsum (map (fun s => amount s * Qsum (map snd (corners iso ns (sa_pos s)))) ss))%Q.
Proof.
  intros H E. rewrite (add_at_sum _ _ _ E), Qsum_repeat0.
  transitivity (Qsum (map (fun ja => 1 * snd ja) (contribs iso ns amount ss)))%Q.
  { rewrite Qplus_0_l. apply Qsum_map_ext. intros; ring. }
  rewrite (contribs_sum iso ns amount ss (fun _ => 1%Q)) by (intros s Hs; apply inside_len, H, Hs).
  apply Qsum_map_ext. intros s _. apply Qmult_comp; [reflexivity|]. apply Qsum_map_ext. intros; ring.
Qed.
Lemma hits_nonneg i iso ns ps : inside ns ps -> (0 <= hits i (corners iso ns ps))%Q.
Proof.
  intros H. unfold hits. apply Qsum_nonneg. intros x Hx. apply in_map_iff in Hx. destruct Hx as (kw & <- & Hk). apply filter_In in Hk. apply (corners_in iso ns ps H), Hk.
Qed.

Lemma corners_one iso ns ps : inside ns ps -> iso = false \/ well_inside ns ps -> (Qsum (map snd (corners iso ns ps)) == 1)%Q.
Proof.
  intros Hin H. apply corners_sum; [exact (fun _ _ => 0%Q)|apply inside_len, Hin|exact Hin|].
  induction Hin as [|n p ns ps [Hp1 Hp2] Hin IH]; constructor.
  - destruct (axis_form iso n p Hp1 Hp2) as (k1 & w1 & k2 & w2 & E & _ & _ & _ & _ & _ & Hf & Hw). rewrite E. cbn [map snd Qsum].
    assert (w1 + w2 == 1)%Q; [|lra]. destruct H as [H|H]; [apply Hf, H|]. inversion H as [|? ? ? ? [Ha Hb] _]; subst. apply Hw; assumption.
  - apply IH. destruct H as [H|H]; [left; exact H|right]. inversion H; assumption.
Qed.
Lemma Qsum_map_le {A} (f g : A -> Q) l : (forall x, In x l -> (f x <= g x)%Q) -> (Qsum (map f l) <= Qsum (map g l))%Q.
Proof.
  induction l as [|x l IH]; intros H; cbn; [lra|]. pose proof (H x (or_introl eq_refl)). specialize (IH (fun y h => H y (or_intror h))). lra.
Qed.
Lemma edge_axis n p : (0 <= p)%Q -> (p < 1#2)%Q -> (1 <= n)%Z -> (Qsum (map snd (corners true [n] [p])) == p + (1#2))%Q.
Proof.
  intros H0 H1 Hn. assert (Ht : Qtrunc p = 0%Z).
  { rewrite Qtrunc_floor by exact H0. pose proof (Qfloor_le p). pose proof (Qlt_floor p).
    assert (-1 < Qfloor p < 1)%Z; [|lia]. split; rewrite Zlt_Qlt; [rewrite inject_Z_plus in H2; change (inject_Z 1) with 1%Q in H2; change (inject_Z (-1)) with (-1#1)%Q|change (inject_Z 1) with 1%Q]; lra. }
  cbn [corners flat_map app]. unfold axis. rewrite Ht. change (inject_Z 0) with 0%Q. cbv zeta.
  destruct (Qlt_bool_cases (0 + (1#2) - p) 0) as [[Hc ->]|[Hc ->]]; [lra|]. cbn [Z.sub Z.eqb Z.add Z.opp Pos.eqb].
  replace (n + -1 =? n)%Z with false by (symmetry; apply Z.eqb_neq; lia).
  destruct (Z.eqb_spec (n - 1) n); [lia|]. cbn [map snd Qsum fst app].
  rewrite Qabs_pos by lra. ring.
Qed.
Lemma combine_nth2 (f t : list Q) i a b : nth_error (combine f t) i = Some (a, b) -> nth i f 0%Q = a /\ nth i t 0%Q = b /\ i < List.length f.
Proof.
  revert t i; induction f as [|x f IH]; intros [|y t] [|i] H; cbn in *; try discriminate.
  - injection H as -> ->. repeat split. lia.
  - destruct (IH _ _ H) as (H1 & H2 & H3). repeat split; (assumption || lia).
Qed.
Lemma wmean_bounds {A} (l : list A) (v w : A -> Q) lo hi : (forall x, In x l -> (0 <= w x)%Q) -> (forall x, In x l -> (lo <= v x <= hi)%Q) ->
  (lo * Qsum (map w l) <= Qsum (map (fun x => v x * w x) l))%Q /\ (Qsum (map (fun x => v x * w x) l) <= hi * Qsum (map w l))%Q.
Proof.
  induction l as [|x l IH]; intros Hw Hv; cbn [map Qsum]; [lra|].
  destruct IH as [I1 I2]; [intros; apply Hw; right; assumption|intros; apply Hv; right; assumption|].
  pose proof (Hw x (or_introl eq_refl)). pose proof (Hv x (or_introl eq_refl)) as [? ?].
  assert (0 <= (v x - lo) * w x)%Q by (apply Qmult_le_0_compat; lra). assert (0 <= (hi - v x) * w x)%Q by (apply Qmult_le_0_compat; lra). split; lra.
Qed.
Lemma flat_bound ns ks : cell_of ns ks -> (0 <= flat ns ks < fold_right Z.mul 1 ns)%Z /\ (0 < fold_right Z.mul 1 ns)%Z.
Proof. induction 1 as [|n k ns ks Hk _ [IH IHp]]; cbn; [lia|]. split; nia. Qed.
Lemma flat_range ns ks : cell_of ns ks -> (0 <= flat ns ks < Z.of_nat (grid_size ns))%Z.
Proof. intros H. destruct (flat_bound ns ks H). unfold grid_size. lia. Qed.
Lemma flat_inj ns ks ks' : cell_of ns ks -> cell_of ns ks' -> flat ns ks = flat ns ks' -> ks = ks'.
Proof.
  intros H; revert ks'; induction H as [|n k ns ks Hk H IH]; intros ks' H' He; inversion H' as [|? k' ? ks2 Hk' H2]; subst; [reflexivity|].
  cbn in He. assert (k = k') by (destruct (Z.lt_trichotomy (flat ns ks) (flat ns ks2)) as [?|[?|?]]; nia). subst. f_equal. apply IH; [exact H2|]. nia.
Qed.
Lemma flat_surj ns : Forall (fun n => 0 < n)%Z ns -> forall i, (0 <= i < Z.of_nat (grid_size ns))%Z -> exists ks, cell_of ns ks /\ flat ns ks = i.
Proof.
  unfold grid_size. intros H. assert (Hp : (0 < fold_right Z.mul 1 ns)%Z) by (induction H; cbn; nia).
  intros i Hi. rewrite Z2Nat.id in Hi by lia. clear Hp. revert i Hi. induction H as [|n ns Hn H IH]; intros i Hi; cbn in *.
  - exists []. split; [constructor|cbn; lia].
  - destruct (IH (i / n)%Z) as (ks & Hk & He). { split; [apply Z.div_pos; lia|]. apply Z.div_lt_upper_bound; lia. }
    exists ((i mod n)%Z :: ks). split; [constructor; [apply Z.mod_pos_bound, Hn|exact Hk]|]. cbn. rewrite He. rewrite (Z.div_mod i n) at 3 by lia. lia.
Qed.
