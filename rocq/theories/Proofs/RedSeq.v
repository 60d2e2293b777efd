(** Proofs about the red-sequence tables. *)
From Coq Require Import QArith Qround Qabs Lqa Sorting.Sorted.
From Verif.Base Require Import Py PyLemmas.
From Verif.Model Require Import Bkg Richness Util RedSeq.
From Verif.Spec Require Import RedSeq.
From Verif.Proofs Require Import Bkg Zlambda Richness ZCorr Vlim Util.
Local Open Scope nat_scope.

(** * rounding and searching *)
Lemma np_round_comp q q' : (q == q')%Q -> np_round q = np_round q'.
Proof.
  intros H. unfold np_round. rewrite (Qfloor_comp _ _ H).
  assert (Hl : forall a b a' b', (a == a')%Q -> (b == b')%Q -> Qlt_bool a b = Qlt_bool a' b').
  { intros a b a' b' H1 H2. destruct (Qlt_bool_cases a b) as [[Hc ->]|[Hc ->]]; symmetry; [apply Qlt_bool_iff|apply Qlt_bool_false]; lra. }
  assert (Hq : (q - inject_Z (Qfloor q') == q' - inject_Z (Qfloor q'))%Q) by (rewrite H; reflexivity).
  rewrite (Hl _ _ _ _ Hq (Qeq_refl _)). rewrite (Hl (1#2)%Q (q - inject_Z (Qfloor q'))%Q (1#2)%Q (q' - inject_Z (Qfloor q'))%Q (Qeq_refl _) Hq). reflexivity.
Qed.
Lemma round_close q : (inject_Z (np_round q) - (1#2) <= q)%Q /\ (q <= inject_Z (np_round q) + (1#2))%Q.
Proof. pose proof (np_round_spec q) as H. apply Qabs_Qle_condition in H. lra. Qed.
Lemma Zlt_Q1 a b : (a < b)%Z -> (inject_Z a + 1 <= inject_Z b)%Q.
Proof. intros H. assert (a + 1 <= b)%Z as H1 by lia. rewrite Zle_Qle, inject_Z_plus in H1. exact H1. Qed.
Lemma np_round_mono q q' : (q <= q')%Q -> (np_round q <= np_round q')%Z.
Proof.
  intros H. destruct (Z_le_gt_dec (np_round q) (np_round q')) as [Hl|Hg]; [exact Hl|]. exfalso.
  assert (Hz : (np_round q' < np_round q)%Z) by lia. apply Zlt_Q1 in Hz.
  destruct (round_close q), (round_close q'). assert (Hq : (q == q')%Q) by lra. rewrite (np_round_comp _ _ Hq) in Hg. lia.
Qed.
Lemma np_round_Z k : np_round (inject_Z k) = k.
Proof. pose proof (np_round_between k k (inject_Z k) (Qle_refl _) (Qle_refl _)). lia. Qed.
Lemma np_round_gt k q : (inject_Z k + (1#2) < q)%Q -> (k < np_round q)%Z.
Proof. intros H. destruct (round_close q). rewrite Zlt_Qlt. lra. Qed.

Lemma ssZ_before l x j y : j < ssZ l x -> nth_error l j = Some y -> (y < x)%Z.
Proof. intros H Hy. apply Z.ltb_lt. exact (prefix_len_before _ _ _ _ H Hy). Qed.
Lemma ssZ_at l x y : nth_error l (ssZ l x) = Some y -> (x <= y)%Z.
Proof. intros H. apply prefix_len_at in H. apply Z.ltb_ge in H. exact H. Qed.
Lemma ssZ_le l x : ssZ l x <= List.length l.
Proof. apply prefix_len_le. Qed.
Lemma ssZ_mono l x x' : (x <= x')%Z -> ssZ l x <= ssZ l x'.
Proof.
  intros H. unfold ssZ. induction l as [|y l IH]; cbn; [lia|]. destruct (Z.ltb_spec y x); [|lia].
  destruct (Z.ltb_spec y x'); [lia|lia].
Qed.
Lemma ssZ_stop l x j y : nth_error l j = Some y -> (x <= y)%Z -> ssZ l x <= j.
Proof. intros H Hy. destruct (Nat.le_gt_cases (ssZ l x) j) as [Hc|Hc]; [exact Hc|]. pose proof (ssZ_before _ _ _ _ Hc H). lia. Qed.
Lemma ssZ_all l x : (forall y, In y l -> (y < x)%Z) -> ssZ l x = List.length l.
Proof.
  intros H. pose proof (ssZ_le l x). destruct (Nat.eq_dec (ssZ l x) (List.length l)) as [E|N]; [exact E|].
  destruct (nth_some l (ssZ l x)) as [y Hy]; [lia|]. pose proof (ssZ_at _ _ _ Hy). pose proof (H y (nth_error_In _ _ Hy)). lia.
Qed.

Lemma bins_len z0 zb n : List.length (bins z0 zb n) = S n.
Proof. unfold bins. rewrite app_length, map_length, seq_length. cbn. lia. Qed.
Lemma bins_row z0 zb n i : i < n -> nth_error (bins z0 zb n) i = Some (zrow z0 zb i).
Proof.
  intros H. unfold bins. rewrite nth_error_app1 by (rewrite map_length, seq_length; lia).
  destruct (nth_some (map (fun i0 => (zb * inject_Z (Z.of_nat i0) + z0)%Q) (seq 0 n)) i) as [x Hx]; [rewrite map_length, seq_length; lia|].
  rewrite Hx. apply nth_seq_map in Hx. destruct Hx as [_ ->]. reflexivity.
Qed.
Lemma bins_last z0 zb n : nth_error (bins z0 zb n) n = Some 1000%Q.
Proof. unfold bins. rewrite nth_error_app2 by (rewrite map_length, seq_length; lia). rewrite map_length, seq_length, Nat.sub_diag. reflexivity. Qed.
Lemma integers_nth s t i z : nth_error t i = Some z -> nth_error (integers s t) i = Some (np_round (z * inject_Z s)).
Proof. intros H. unfold integers. rewrite nth_error_map, H. reflexivity. Qed.
Lemma lookup_le s t z : lookup s t z <= List.length t.
Proof. unfold lookup. pose proof (ssZ_le (integers s t) (np_round (z * inject_Z s))). unfold integers in *. rewrite map_length in H. exact H. Qed.
Lemma inj_pos s : (0 < s)%Z -> (0 < inject_Z s)%Q.
Proof. intros H. change 0%Q with (inject_Z 0). rewrite <- Zlt_Qlt. exact H. Qed.
Lemma lookup_mono s t z z' : (0 < s)%Z -> (z <= z')%Q -> lookup s t z <= lookup s t z'.
Proof. intros Hs H. apply ssZ_mono, np_round_mono. apply Qmult_le_compat_r; [exact H|]. pose proof (inj_pos s Hs). lra. Qed.
Lemma lookup_stop s t z j y : (0 < s)%Z -> nth_error t j = Some y -> (z <= y)%Q -> lookup s t z <= j.
Proof.
  intros Hs Hj H. refine (ssZ_stop _ _ _ _ (integers_nth s t j y Hj) _). apply np_round_mono. apply Qmult_le_compat_r; [exact H|]. pose proof (inj_pos s Hs). lra.
Qed.
Lemma zrow_mono z0 zb i j : (0 < zb)%Q -> i <= j -> (zrow z0 zb i <= zrow z0 zb j)%Q.
Proof.
  intros Hz H. unfold zrow. assert (inject_Z (Z.of_nat i) <= inject_Z (Z.of_nat j))%Q by (rewrite <- Zle_Qle; lia).
  assert (zb * inject_Z (Z.of_nat i) <= zb * inject_Z (Z.of_nat j))%Q by (apply Qmult_le_l; assumption). lra.
Qed.
Lemma zrow_S z0 zb i : (zrow z0 zb (S i) == zrow z0 zb i + zb)%Q.
Proof. unfold zrow. rewrite Nat2Z.inj_succ. unfold Z.succ. rewrite inject_Z_plus. change (inject_Z 1) with 1%Q. ring. Qed.
Lemma zrow_0 z0 zb : (zrow z0 zb 0 == z0)%Q.
Proof. unfold zrow. change (inject_Z (Z.of_nat 0)) with 0%Q. ring. Qed.
Lemma binscale_spec zb : (0 < zb)%Q -> (zb <= 1)%Q -> (0 < binscale zb)%Z /\ (zb * inject_Z (binscale zb) <= 1)%Q.
Proof.
  intros H0 H1. unfold binscale. pose proof (Qfloor_le (1 / zb)) as Hf.
  assert (Hq : (1 <= 1 / zb)%Q) by (apply Qle_shift_div_l; lra).
  split.
  - assert (1 <= Qfloor (1 / zb))%Z; [|lia]. change 1%Z with (Qfloor 1). apply Qfloor_resp_le, Hq.
  - apply Qle_trans with (zb * (1 / zb))%Q; [apply Qmult_le_l; assumption|]. rewrite Qmult_div_r by lra. lra.
Qed.

(** the looked-up row is within one step of the integer grid *)
Lemma lookup_near s z0 zb n z : (0 < zb)%Q -> (0 < s)%Z -> (zb * inject_Z s <= 1)%Q -> 1 <= n -> (z0 <= z)%Q -> (z <= zrow z0 zb (n - 1))%Q ->
  let i := lookup s (bins z0 zb n) z in i < n /\ (Qabs (z - zrow z0 zb i) * inject_Z s <= 1)%Q.
Proof.
  intros Hz Hs Hzs Hn H0 H1 i.
  assert (Hi : i < n). { assert (i <= n - 1); [|lia]. refine (lookup_stop s _ z (n - 1) _ Hs _ H1). apply bins_row. lia. }
  split; [exact Hi|]. set (r := np_round (z * inject_Z s)). pose proof (inj_pos s Hs) as Hsp.
  assert (Hr : (r <= np_round (zrow z0 zb i * inject_Z s))%Z).
  { apply (ssZ_at (integers s (bins z0 zb n))). apply (integers_nth s (bins z0 zb n) i). apply bins_row, Hi. }
  destruct (round_close (z * inject_Z s)) as [C1 C2]. fold r in C1, C2.
  assert (Hup : (z * inject_Z s - zrow z0 zb i * inject_Z s <= 1)%Q).
  { destruct (round_close (zrow z0 zb i * inject_Z s)) as [D1 D2]. rewrite Zle_Qle in Hr. lra. }
  assert (Hlo : (zrow z0 zb i * inject_Z s - z * inject_Z s <= 1)%Q).
  { destruct i as [|i'] eqn:Ei.
    - rewrite zrow_0 in *. assert (z0 * inject_Z s <= z * inject_Z s)%Q by (apply Qmult_le_compat_r; lra). lra.
    - assert (Hb : (np_round (zrow z0 zb i' * inject_Z s) < r)%Z).
      { refine (ssZ_before (integers s (bins z0 zb n)) r i' _ _ (integers_nth s (bins z0 zb n) i' _ (bins_row z0 zb n i' _))); [|lia].
        change (i' < i); lia. }
      apply Zlt_Q1 in Hb. destruct (round_close (zrow z0 zb i' * inject_Z s)) as [D1 D2]. rewrite zrow_S. lra. }
  setoid_replace (Qabs (z - zrow z0 zb i) * inject_Z s)%Q with (Qabs (z * inject_Z s - zrow z0 zb i * inject_Z s))%Q.
  - apply Qabs_Qle_condition. lra.
  - rewrite <- (Qabs_pos (inject_Z s)) at 1 by lra. rewrite <- Qabs_Qmult. setoid_replace ((z - zrow z0 zb i) * inject_Z s)%Q with (z * inject_Z s - zrow z0 zb i * inject_Z s)%Q by ring. reflexivity.
Qed.

(** aligned tables: the integers are consecutive *)
Lemma aligned_scale z0 zb : aligned z0 zb -> exists k, (0 < zb)%Q /\ (zb <= 1)%Q /\ (0 < binscale zb)%Z /\ (zb * inject_Z (binscale zb) == 1)%Q /\ (z0 * inject_Z (binscale zb) == inject_Z k)%Q.
Proof.
  intros (k & n & Hn & H1 & H2). exists k. pose proof (inj_pos n Hn) as Hnp.
  assert (Hz : (0 < zb)%Q) by (apply (Qmult_lt_r _ _ (inject_Z n) Hnp); lra).
  assert (Hzn : (zb == 1 / inject_Z n)%Q) by (rewrite <- H1; field; lra).
  assert (Hb : binscale zb = n).
  { unfold binscale. rewrite (Qfloor_comp (1 / zb) (inject_Z n)); [apply Qfloor_Z|]. rewrite <- H1. field. lra. }
  rewrite Hb. repeat split; try assumption. rewrite Hzn. apply Qle_shift_div_r; [exact Hnp|]. rewrite Qmult_1_l. change 1%Q with (inject_Z 1). rewrite <- Zle_Qle. lia.
Qed.
Lemma aligned_row z0 zb s k i : (zb * inject_Z s == 1)%Q -> (z0 * inject_Z s == inject_Z k)%Q ->
  (zrow z0 zb i * inject_Z s == inject_Z (Z.of_nat i + k))%Q.
Proof. intros H1 H2. unfold zrow. rewrite inject_Z_plus, <- H2. setoid_replace ((zb * inject_Z (Z.of_nat i) + z0) * inject_Z s)%Q with ((zb * inject_Z s) * inject_Z (Z.of_nat i) + z0 * inject_Z s)%Q by ring. rewrite H1. ring. Qed.
Lemma aligned_int z0 zb s k i : (zb * inject_Z s == 1)%Q -> (z0 * inject_Z s == inject_Z k)%Q -> np_round (zrow z0 zb i * inject_Z s) = (Z.of_nat i + k)%Z.
Proof. intros H1 H2. rewrite (np_round_comp _ _ (aligned_row z0 zb s k i H1 H2)). apply np_round_Z. Qed.

Lemma aligned_index z0 zb s k n z : (zb * inject_Z s == 1)%Q -> (0 < s)%Z -> (z0 * inject_Z s == inject_Z k)%Q -> 1 <= n ->
  let r := np_round (z * inject_Z s) in (k <= r)%Z -> (r <= Z.of_nat (n - 1) + k)%Z -> Z.of_nat (lookup s (bins z0 zb n) z) = (r - k)%Z.
Proof.
  intros H1 Hs H2 Hn r Hr0 Hr1. unfold lookup. fold r. set (i := ssZ _ r).
  assert (Hi : i <= n - 1).
  { refine (ssZ_stop _ _ _ _ (integers_nth s _ (n - 1) _ (bins_row z0 zb n (n - 1) _)) _); [lia|]. rewrite (aligned_int z0 zb s k) by assumption. exact Hr1. }
  assert (Ha : (r <= Z.of_nat i + k)%Z).
  { rewrite <- (aligned_int z0 zb s k i H1 H2). apply (ssZ_at (integers s (bins z0 zb n))). apply integers_nth, bins_row. lia. }
  destruct i as [|i'] eqn:Ei; [lia|].
  assert (Hb : (Z.of_nat i' + k < r)%Z).
  { rewrite <- (aligned_int z0 zb s k i' H1 H2). refine (ssZ_before (integers s (bins z0 zb n)) r i' _ _ (integers_nth s _ i' _ (bins_row z0 zb n i' _))); lia. }
  lia.
Qed.
Lemma Qabs_int_ge (a b : Z) x : (Qabs (x - inject_Z a) <= 1#2)%Q -> (Qabs (x - inject_Z a) <= Qabs (x - inject_Z b))%Q.
Proof.
  intros H. destruct (Z.eq_dec a b) as [->|N]; [apply Qle_refl|]. assert (1 <= Qabs (inject_Z a - inject_Z b))%Q.
  { destruct (Z_lt_le_dec a b) as [Hl|Hl]; [|assert (b < a)%Z as Hl2 by lia].
    - apply Zlt_Q1 in Hl. rewrite Qabs_neg by lra. lra.
    - apply Zlt_Q1 in Hl2. rewrite Qabs_pos by lra. lra. }
  pose proof (Qabs_triangle (inject_Z a - x) (x - inject_Z b)) as Ht.
  setoid_replace (inject_Z a - x + (x - inject_Z b))%Q with (inject_Z a - inject_Z b)%Q in Ht by ring.
  rewrite (Qabs_Qminus (inject_Z a) x) in Ht. lra.
Qed.

(** * covariance matrices *)
Lemma mset_same m j k v : mset m j k v j k = v.
Proof. unfold mset. rewrite !Nat.eqb_refl. reflexivity. Qed.
Lemma mset_other m j k v a b : (a, b) <> (j, k) -> mset m j k v a b = m a b.
Proof. intros H. unfold mset. destruct (Nat.eqb_spec a j) as [->|]; cbn [andb]; [|reflexivity]. destruct (Nat.eqb_spec b k) as [->|]; [congruence|reflexivity]. Qed.

Definition diag_ok (minsig : Q) (raw : mat) (sc : mat * mat) (j : nat) : Prop :=
  fst sc j j = Qmax2 (raw j j) minsig /\ snd sc j j = (Qmax2 (raw j j) minsig * Qmax2 (raw j j) minsig)%Q.
Lemma diag_fold minsig raw l : forall sc, (forall j, In j l -> diag_ok minsig raw (fold_left (diag_step minsig raw) l sc) j) /\
  (forall j, ~ In j l -> diag_ok minsig raw sc j -> diag_ok minsig raw (fold_left (diag_step minsig raw) l sc) j).
Proof.
  induction l as [|x l IH]; intros [s c]; [split; [intros j []|intros j _ H; exact H]|]. cbn [fold_left].
  destruct (IH (diag_step minsig raw (s, c) x)) as [I1 I2].
  assert (Hx : diag_ok minsig raw (diag_step minsig raw (s, c) x) x).
  { unfold diag_ok, diag_step. cbn [fst snd]. rewrite !mset_same. split; reflexivity. }
  assert (Ho : forall j, j <> x -> diag_ok minsig raw (s, c) j -> diag_ok minsig raw (diag_step minsig raw (s, c) x) j).
  { intros j Hj [H1 H2]. unfold diag_ok, diag_step. cbn [fst snd]. rewrite !mset_other by congruence. split; assumption. }
  split.
  - intros j [<-|Hj]; [|apply I1, Hj]. destruct (in_dec Nat.eq_dec x l) as [H|H]; [apply I1, H|apply I2; [exact H|exact Hx]].
  - intros j Hn Hd. apply I2; [intros h; apply Hn; right; exact h|]. apply Ho; [intros ->; apply Hn; left; reflexivity|exact Hd].
Qed.

Definition corr_clip (x : Q) : Q := if Qlt_bool x (-99#100) then (-99#100)%Q else if Qlt_bool (99#100) x then (99#100)%Q else x.
Definition off_ok (raw : mat) (sc : mat * mat) (j k : nat) : Prop :=
  fst sc j k = corr_clip (raw j k) /\ fst sc k j = fst sc j k /\ snd sc j k = (fst sc k j * fst sc j j * fst sc k k)%Q /\ snd sc k j = snd sc j k.
(** what one pair does *)
Lemma off_step_own raw j k sc : j <> k -> off_ok raw (off_step raw j sc k) j k.
Proof.
  destruct sc as [s c]. intros Hjk. unfold off_step. cbv zeta. rewrite mset_same.
  set (s1 := mset s j k (raw j k)).
  set (s2 := if Qlt_bool (99#100) (raw j k) then mset s1 j k (99#100) else s1).
  set (s3 := if Qlt_bool (s2 j k) (-99#100) then mset s2 j k (-99#100) else s2).
  assert (E2 : s2 j k = if Qlt_bool (99#100) (raw j k) then (99#100)%Q else raw j k).
  { unfold s2, s1. destruct (Qlt_bool _ _); rewrite ?mset_same; reflexivity. }
  assert (E3 : s3 j k = corr_clip (raw j k)).
  { unfold s3, corr_clip. rewrite E2. destruct (Qlt_bool_cases (99#100) (raw j k)) as [[H1 E]|[H1 E]]; rewrite E.
    - destruct (Qlt_bool_cases (99#100) (-99#100)) as [[H2 ->]|[H2 ->]]; [lra|]. destruct (Qlt_bool_cases (raw j k) (-99#100)) as [[H3 ->]|[H3 ->]]; [lra|].
      unfold s2. rewrite E. apply mset_same.
    - destruct (Qlt_bool (raw j k) (-99#100)); [apply mset_same|]. unfold s2. rewrite E. apply mset_same. }
  unfold off_ok. cbn [fst snd]. rewrite (mset_other _ k j _ j k) by congruence. rewrite !mset_same. rewrite (mset_other _ k j _ j k) by congruence. rewrite mset_same.
  rewrite (mset_other _ k j _ k k) by congruence. rewrite (mset_other _ k j _ j j) by congruence. rewrite E3. repeat split; reflexivity.
Qed.
Lemma off_step_diag raw j k sc a : j <> k -> fst (off_step raw j sc k) a a = fst sc a a /\ snd (off_step raw j sc k) a a = snd sc a a.
Proof.
  destruct sc as [s c]. intros Hjk. unfold off_step. cbv zeta.
  destruct (Qlt_bool (99#100) _); destruct (Qlt_bool _ (-99#100)); cbn [fst snd]; rewrite !mset_other by congruence; split; reflexivity.
Qed.
Lemma off_step_other raw j k sc a b : j <> k -> (a, b) <> (j, k) -> (a, b) <> (k, j) ->
  fst (off_step raw j sc k) a b = fst sc a b /\ snd (off_step raw j sc k) a b = snd sc a b.
Proof.
  destruct sc as [s c]. intros Hjk H1 H2. unfold off_step. cbv zeta.
  destruct (Qlt_bool (99#100) _); destruct (Qlt_bool _ (-99#100)); cbn [fst snd]; rewrite !mset_other by congruence; split; reflexivity.
Qed.
Lemma off_step_keep raw j k sc a b : j < k -> a < b -> off_ok raw sc a b -> off_ok raw (off_step raw j sc k) a b.
Proof.
  intros Hjk Hab H. destruct (Nat.eq_dec a j) as [->|Na].
  - destruct (Nat.eq_dec b k) as [->|Nb]; [apply off_step_own; lia|].
    unfold off_ok in *. destruct (off_step_other raw j k sc j b) as [-> ->]; [lia|congruence|intros [= E1 E2]; lia|].
    destruct (off_step_other raw j k sc b j) as [-> ->]; [lia|intros [= E1 E2]; lia|congruence|].
    destruct (off_step_diag raw j k sc j) as [-> _]; [lia|]. destruct (off_step_diag raw j k sc b) as [-> _]; [lia|]. exact H.
  - assert (N1 : (a, b) <> (j, k)) by congruence. assert (N2 : (a, b) <> (k, j)) by (intros [= -> ->]; lia).
    assert (N3 : (b, a) <> (j, k)) by (intros [= -> ->]; lia). assert (N4 : (b, a) <> (k, j)) by congruence.
    unfold off_ok in *. destruct (off_step_other raw j k sc a b) as [-> ->]; [lia|exact N1|exact N2|].
    destruct (off_step_other raw j k sc b a) as [-> ->]; [lia|exact N3|exact N4|].
    destruct (off_step_diag raw j k sc a) as [-> _]; [lia|]. destruct (off_step_diag raw j k sc b) as [-> _]; [lia|]. exact H.
Qed.
Definition pairs (ncol : nat) : list (nat * nat) := flat_map (fun j => map (fun k => (j, k)) (seq (j + 1) (ncol - (j + 1)))) (seq 0 ncol).
Lemma nested_fold raw ncol l sc : fold_left (fun sc j => fold_left (off_step raw j) (seq (j + 1) (ncol - (j + 1))) sc) l sc =
  fold_left (fun sc jk => off_step raw (fst jk) sc (snd jk)) (flat_map (fun j => map (fun k => (j, k)) (seq (j + 1) (ncol - (j + 1)))) l) sc.
Proof.
  revert sc; induction l as [|j l IH]; intros sc; cbn [fold_left flat_map]; [reflexivity|]. rewrite fold_left_app, <- IH. f_equal.
  generalize (seq (j + 1) (ncol - (j + 1))). intros m. revert sc. induction m as [|k m IHm]; intros sc; cbn; [reflexivity|]. apply IHm.
Qed.
Lemma pairs_fold raw l : (forall p, In p l -> fst p < snd p) -> forall sc, let r := fold_left (fun sc jk => off_step raw (fst jk) sc (snd jk)) l sc in
  (forall a, fst r a a = fst sc a a /\ snd r a a = snd sc a a) /\ (forall a b, a < b -> In (a, b) l \/ off_ok raw sc a b -> off_ok raw r a b).
Proof.
  induction l as [|[j k] l IH]; intros Hl sc; cbn [fold_left fst snd].
  - split; [intros; split; reflexivity|]. intros a b _ [[]|H]. exact H.
  - assert (Hjk : j < k) by (apply (Hl (j, k)); left; reflexivity).
    destruct (IH (fun p h => Hl p (or_intror h)) (off_step raw j sc k)) as [I1 I2]. cbv zeta in *. split.
    + intros a. destruct (I1 a) as [-> ->]. apply off_step_diag. lia.
    + intros a b Hab [[[= -> ->]|Hi]|Ho].
      * apply I2; [exact Hab|]. right. apply off_step_own. lia.
      * apply I2; [exact Hab|left; exact Hi].
      * apply I2; [exact Hab|right]. apply off_step_keep; assumption.
Qed.
Lemma pairs_in ncol a b : In (a, b) (pairs ncol) <-> a < b < ncol.
Proof.
  unfold pairs. rewrite in_flat_map. split.
  - intros (j & Hj & H). apply in_map_iff in H. destruct H as (k & [= -> ->] & Hk). apply in_seq in Hk. lia.
  - intros H. exists a. split; [apply in_seq; lia|]. apply in_map. apply in_seq. lia.
Qed.
Lemma covmat_spec minsig ncol raw : let r := covmat minsig ncol raw in
  (forall j, j < ncol -> diag_ok minsig raw r j) /\ (forall j k, j < k < ncol -> off_ok raw r j k).
Proof.
  cbv zeta. unfold covmat. rewrite nested_fold. fold (pairs ncol).
  set (sc := fold_left (diag_step minsig raw) (seq 0 ncol) (mzero, mzero)).
  destruct (pairs_fold raw (pairs ncol)) with (sc := sc) as [P1 P2].
  { intros [a b] Hp. apply pairs_in in Hp. cbn. lia. }
  split.
  - intros j Hj. unfold diag_ok. destruct (P1 j) as [-> ->]. apply (proj1 (diag_fold minsig raw (seq 0 ncol) (mzero, mzero))). apply in_seq. lia.
  - intros j k H. apply P2; [lia|]. left. apply pairs_in. exact H.
Qed.
Lemma corr_clip_bounds x : ((-99#100) <= corr_clip x)%Q /\ (corr_clip x <= (99#100))%Q /\ (((-99#100) <= x <= (99#100))%Q -> corr_clip x = x).
Proof.
  unfold corr_clip. destruct (Qlt_bool_cases x (-99#100)) as [[H ->]|[H ->]]; [repeat split; try lra|].
  destruct (Qlt_bool_cases (99#100) x) as [[H2 ->]|[H2 ->]]; repeat split; try lra; try reflexivity.
Qed.

(** * extrapolated rows *)
Lemma set_all_nth {A} idx : forall (l : list A) f i, i < List.length l -> nth_error (set_all l idx f) i = if in_dec Nat.eq_dec i idx then Some (f i) else nth_error l i.
Proof.
  unfold set_all. induction idx as [|k idx IH]; intros l f i Hi; cbn [fold_left]; [destruct (in_dec Nat.eq_dec i []) as [[]|]; reflexivity|].
  rewrite IH by (rewrite set_nth_length; exact Hi).
  destruct (in_dec Nat.eq_dec i idx) as [H|H]; destruct (in_dec Nat.eq_dec i (k :: idx)) as [H'|H']; try reflexivity.
  - exfalso. apply H'. right; exact H.
  - destruct H' as [->|H']; [|contradiction]. apply set_nth_same, Hi.
  - apply set_nth_other. intros ->. apply H'. left; reflexivity.
Qed.
Lemma set_all_length {A} idx : forall (l : list A) f, List.length (set_all l idx f) = List.length l.
Proof. unfold set_all. induction idx as [|k idx IH]; intros l f; cbn [fold_left]; [reflexivity|]. rewrite IH. apply set_nth_length. Qed.

Lemma not_extrap_in zmin zmax zs i : In i (not_extrap zmin zmax zs) <-> exists z, nth_error zs i = Some z /\ (zmin <= z <= zmax)%Q.
Proof.
  unfold not_extrap. rewrite np_where_spec. split; intros (z & H1 & H2); exists z; (split; [exact H1|]).
  - apply negb_true_iff, orb_false_iff in H2. destruct H2 as [H2 H3]. apply Qlt_bool_false in H2. apply Qlt_bool_false in H3. split; assumption.
  - apply negb_true_iff, orb_false_iff. split; apply Qlt_bool_false; lra.
Qed.
Lemma loz_in zmin zs i : In i (loz zmin zs) <-> exists z, nth_error zs i = Some z /\ (z < zmin)%Q.
Proof. unfold loz. rewrite np_where_spec. split; intros (z & H1 & H2); exists z; (split; [exact H1|]); apply Qlt_bool_iff; exact H2. Qed.
Lemma hiz_in zmax zs i : In i (hiz zmax zs) <-> exists z, nth_error zs i = Some z /\ (zmax < z)%Q.
Proof. unfold hiz. rewrite np_where_spec. split; intros (z & H1 & H2); exists z; (split; [exact H1|]); apply Qlt_bool_iff; exact H2. Qed.

Lemma sorted_first_last (l : list nat) : StronglySorted lt l -> l <> [] ->
  exists a b, py_index (map Z.of_nat l) 0 = Ok (Z.of_nat a) /\ py_index (map Z.of_nat l) (-1) = Ok (Z.of_nat b) /\ In a l /\ In b l /\ (forall x, In x l -> a <= x <= b).
Proof.
  intros Hs Hn. destruct l as [|a l]; [congruence|].
  set (b := last l a). exists a, b.
  assert (Hb : nth_error (a :: l) (List.length l) = Some b).
  { apply last_nth_error. }
  split; [reflexivity|]. split.
  { unfold py_index. rewrite map_length. cbn [List.length]. replace (-1 <? 0)%Z with true by reflexivity. cbv zeta.
    replace (-1 + Z.of_nat (S (List.length l)))%Z with (Z.of_nat (List.length l)) by lia.
    replace (Z.of_nat (List.length l) <? 0)%Z with false by (symmetry; apply Z.ltb_ge; lia). replace (Z.of_nat (S (List.length l)) <=? Z.of_nat (List.length l))%Z with false by (symmetry; apply Z.leb_gt; lia).
    cbn [orb]. rewrite Nat2Z.id, nth_error_map, Hb. reflexivity. }
  split; [left; reflexivity|]. split; [exact (nth_error_In _ _ Hb)|].
  intros x Hx. apply In_nth_error in Hx. destruct Hx as [i Hi]. assert (Hil : i < List.length (a :: l)) by (apply nth_error_Some; congruence). cbn in Hil. split.
  - destruct i as [|i]; [injection Hi as <-; lia|]. assert (a < x); [|lia]. exact (SS_nth _ _ 0 (S i) _ _ Hs (Nat.lt_0_succ i) eq_refl Hi).
  - destruct (Nat.eq_dec i (List.length l)) as [->|N]; [assert (x = b) by congruence; lia|]. assert (x < b); [|lia]. refine (SS_nth _ _ i (List.length l) _ _ Hs _ Hi Hb). lia.
Qed.
Lemma not_extrap_ends zmin zmax zs : (exists i z, nth_error zs i = Some z /\ (zmin <= z <= zmax)%Q) ->
  exists a b, py_index (map Z.of_nat (not_extrap zmin zmax zs)) 0 = Ok (Z.of_nat a) /\ py_index (map Z.of_nat (not_extrap zmin zmax zs)) (-1) = Ok (Z.of_nat b) /\
    first_calibrated zmin zmax zs a /\ last_calibrated zmin zmax zs b.
Proof.
  intros (i & z & Hi). destruct (sorted_first_last (not_extrap zmin zmax zs)) as (a & b & H1 & H2 & Ha & Hb & Hr).
  - apply where_from_sorted.
  - assert (In i (not_extrap zmin zmax zs)) by (apply not_extrap_in; eauto). intros He. rewrite He in H. contradiction.
  - exists a, b. split; [exact H1|]. split; [exact H2|]. split.
    + split; [apply not_extrap_in, Ha|]. intros j w Hj Hw. apply (Hr j). apply not_extrap_in. eauto.
    + split; [apply not_extrap_in, Hb|]. intros j w Hj Hw. apply (Hr j). apply not_extrap_in. eauto.
Qed.
