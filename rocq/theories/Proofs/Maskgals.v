(** Proofs about the mask galaxies. *)
From Coq Require Import QArith Qround Lqa Lia.
From Verif.Base Require Import Py PyLemmas.
From Verif.Model Require Import Util Maskgals.
From Verif.Spec Require Import Maskgals.
From Verif.Proofs Require Import Util Vlim.
From Coq Require Import Lqa Lia List Sorting.Sorted Permutation. Import ListNotations.
Local Open Scope Q_scope.

(** ** drawing *)
Lemma first_where {A} (p : A -> bool) l k t : np_where p l = k :: t ->
  (exists x, nth_error l k = Some x /\ p x = true) /\ (forall j x, (j < k)%nat -> nth_error l j = Some x -> p x = false).
Proof.
  intros H. split.
  - apply np_where_spec. rewrite H. left. reflexivity.
  - intros j x Hj Hx. destruct (p x) eqn:E; [|reflexivity]. exfalso.
    assert (In j (np_where p l)) by (apply np_where_spec; exists x; auto). rewrite H in H0.
    pose proof (where_from_sorted p l 0) as S. change (where_from p 0 l) with (np_where p l) in S. rewrite H in S. inversion S as [|a b c d]; subst.
    destruct H0 as [H0|H0]; [lia|]. rewrite Forall_forall in d. specialize (d _ H0). lia.
Qed.
Lemma finite_some pdf : finite (map Some pdf) = Some pdf.
Proof. induction pdf as [|x t IH]; [reflexivity|]. cbn. cbn in IH. unfold finite in *. cbn in *. rewrite IH. reflexivity. Qed.
Lemma Qn_pos n : (0 < n)%nat -> 0 < Qn n.
Proof. intros H. unfold Qn. change 0 with (inject_Z 0). rewrite <- Zlt_Qlt. lia. Qed.

Lemma share_firstn pdf i : 0 < Qsum pdf -> Qsum (firstn (S i) (map (fun p => p / Qsum pdf) pdf)) == share pdf i.
Proof.
  intros H. unfold share. rewrite firstn_map. generalize (firstn (S i) pdf). intros l. induction l as [|x l IH]; cbn [map Qsum].
  - field. lra.
  - rewrite IH. field. lra.
Qed.
Lemma cdfi_nth pdf i : (i < length pdf)%nat -> 0 < Qsum pdf -> (forall p, In p pdf -> 0 <= p) ->
  exists z, nth_error (cdfi (map Some pdf)) i = Some (Some z) /\ z = Qfloor (share pdf i * Qn (length pdf)).
Proof.
  intros Hi Hs Hp. unfold cdfi. rewrite finite_some, map_length.
  destruct (cumsum_nth (map (fun p => p / Qsum pdf) pdf) i) as (c & Hc & Ec); [rewrite map_length; exact Hi|].
  rewrite (map_nth_error _ _ _ Hc). eexists. split; [reflexivity|].
  rewrite share_firstn in Ec by exact Hs.
  assert (N : 0 <= share pdf i).
  { unfold share. apply Qle_shift_div_l; [exact Hs|]. rewrite Qmult_0_l. apply Qsum_nonneg. intros x Hx. apply Hp.
    rewrite <- (firstn_skipn (S i) pdf). apply in_or_app. left. exact Hx. }
  rewrite Qtrunc_floor.
  - apply Qfloor_comp. rewrite Ec. reflexivity.
  - rewrite Ec. apply Qmult_le_0_compat; [exact N|]. apply Qlt_le_weak, Qn_pos. lia.
Qed.
Lemma share_mono pdf i j : 0 < Qsum pdf -> (forall p, In p pdf -> 0 <= p) -> (i <= j)%nat -> share pdf i <= share pdf j.
Proof. intros Hs Hp Hij. unfold share. apply Qmult_le_compat_r; [apply Qsum_firstn_mono; [exact Hp|lia]|]. apply Qinv_le_0_compat. lra. Qed.
Lemma share_last pdf : 0 < Qsum pdf -> (0 < length pdf)%nat -> share pdf (length pdf - 1) == 1.
Proof. intros Hs Hl. unfold share. replace (S (length pdf - 1)) with (length pdf) by lia. rewrite firstn_all. field. lra. Qed.

Lemma floor_le_iff q z : (Qfloor q <= z)%Z <-> q < inject_Z (z + 1).
Proof.
  split; intros H.
  - apply Qlt_le_trans with (inject_Z (Qfloor q + 1)); [apply Qlt_floor|]. rewrite <- Zle_Qle. lia.
  - pose proof (Qfloor_le q). assert (inject_Z (Qfloor q) < inject_Z (z + 1)) by lra. rewrite <- Zlt_Qlt in H1. lia.
Qed.

Definition thr (pdf : list Q) (i : nat) : Q := inject_Z (Qfloor (share pdf i * Qn (length pdf)) + 1) / Qn (length pdf).
Lemma thr_bounds pdf i : (0 < length pdf)%nat -> share pdf i < thr pdf i <= share pdf i + 1 / Qn (length pdf).
Proof.
  intros Hl. pose proof (Qn_pos _ Hl) as P. unfold thr. set (q := share pdf i * Qn (length pdf)).
  pose proof (Qlt_floor q) as H1. pose proof (Qfloor_le q) as H2. split.
  - apply Qlt_shift_div_l; [exact P|]. exact H1.
  - apply Qle_shift_div_r; [exact P|]. rewrite inject_Z_plus. change (inject_Z 1) with 1.
    assert (E : (share pdf i + 1 / Qn (length pdf)) * Qn (length pdf) == q + 1) by (unfold q; field; lra). rewrite E. lra.
Qed.
Lemma drawn_spec pdf u : 0 < Qsum pdf -> (forall p, In p pdf -> 0 <= p) -> 0 <= u -> u < 1 ->
  exists k, drawn (map Some pdf) u = Ok k /\ (k < length pdf)%nat /\ forall i, (i < length pdf)%nat -> ((k <= i)%nat <-> u < thr pdf i).
Proof.
  intros Hs Hp Hu0 Hu1. assert (Hl : (0 < length pdf)%nat) by (destruct pdf; [cbn in Hs; lra|cbn; lia]).
  pose proof (Qn_pos _ Hl) as P. unfold drawn. rewrite map_length.
  set (r := Qtrunc (u * Qn (length pdf))).
  assert (R : r = Qfloor (u * Qn (length pdf))) by (unfold r; apply Qtrunc_floor, Qmult_le_0_compat; lra).
  set (p := fun c : option Z => _).
  assert (K : forall i, (i < length pdf)%nat -> exists x, nth_error (cdfi (map Some pdf)) i = Some x /\ (p x = true <-> u < thr pdf i)).
  { intros i Hi. destruct (cdfi_nth pdf i Hi Hs Hp) as (z & Hz & Ez). exists (Some z). split; [exact Hz|]. unfold p. rewrite Z.leb_le, R, floor_le_iff, Ez.
    unfold thr. split; intros H; [apply Qlt_shift_div_l; assumption|]. 
    set (t := inject_Z (Qfloor (share pdf i * Qn (length pdf)) + 1)) in *. assert (E : t == t / Qn (length pdf) * Qn (length pdf)) by (field; lra). rewrite E.
    apply Qmult_lt_compat_r; assumption. }
  assert (TM : forall i j, (i <= j)%nat -> thr pdf i <= thr pdf j).
  { intros i j Hij. unfold thr. apply Qmult_le_compat_r; [|apply Qinv_le_0_compat; lra]. rewrite <- Zle_Qle.
    assert (Qfloor (share pdf i * Qn (length pdf)) <= Qfloor (share pdf j * Qn (length pdf)))%Z; [|lia]. apply Qfloor_resp_le.
    apply Qmult_le_compat_r; [apply share_mono; assumption|lra]. }
  destruct (np_where p (cdfi (map Some pdf))) as [|k t] eqn:W.
  - exfalso. destruct (K (length pdf - 1)%nat ltac:(lia)) as (x & Hx & Px).
    assert (T : u < thr pdf (length pdf - 1)) by (destruct (thr_bounds pdf (length pdf - 1) Hl) as [T _]; rewrite share_last in T by assumption; lra).
    apply Px in T. assert (In (length pdf - 1)%nat (np_where p (cdfi (map Some pdf)))) by (apply np_where_spec; exists x; auto). rewrite W in H. exact H.
  - exists k. split; [reflexivity|]. destruct (first_where _ _ _ _ W) as ((x & Hx & Px) & Hb).
    assert (Hk : (k < length pdf)%nat).
    { assert (k < length (cdfi (map Some pdf)))%nat by (apply nth_error_Some; congruence). unfold cdfi in H. rewrite finite_some in H.
      unfold cumsum in H. rewrite map_length, cumsum_from_length, map_length in H. exact H. }
    split; [exact Hk|]. destruct (K k Hk) as (x' & Hx' & Px'). assert (x' = x) by congruence. subst x'. apply Px' in Px.
    intros i Hi. split.
    + intros Hki. pose proof (TM k i Hki). lra.
    + intros Hu. destruct (le_lt_dec k i) as [|Hlt]; [assumption|]. exfalso. destruct (K i Hi) as (y & Hy & Py). apply Py in Hu. rewrite (Hb i y Hlt Hy) in Hu. discriminate.
Qed.
Lemma finite_none t : finite (None :: t) = None.
Proof. reflexivity. Qed.
Lemma where_none {A} (p : option A -> bool) (l : list (option Q)) : p None = false -> np_where p (map (fun _ => None) l) = [].
Proof. intros H. unfold np_where. generalize 0%nat. induction l as [|x l IH]; intros i; cbn; [reflexivity|]. rewrite H. apply IH. Qed.

(** ** bins *)
Lemma minrad_le a : minrad a <= a.
Proof.
  unfold minrad. set (q := inject_Z (Qfloor (10 * a)) / 10).
  assert (H : q <= a) by (unfold q; pose proof (Qfloor_le (10 * a)); apply Qle_shift_div_r; lra).
  unfold Qmin2. destruct (Qle_bool q (1#2)) eqn:E; [exact H|]. destruct (Qlt_le_dec (1#2) q) as [K|K]; [lra|]. apply Qle_bool_iff in K. congruence.
Qed.
Lemma maxrad_ge b : b <= maxrad b.
Proof. unfold maxrad. pose proof (Qle_ceiling (10 * b)). apply Qle_shift_div_l; lra. Qed.
Lemma maxrad_lt b : maxrad b < b + (1 # 10).
Proof.
  unfold maxrad. pose proof (Qceiling_lt (10 * b)) as H.
  assert (E : inject_Z (Qceiling (10 * b)) == inject_Z (Qceiling (10 * b) - 1) + 1).
  { change 1 with (inject_Z 1). rewrite <- inject_Z_plus. replace (Qceiling (10 * b) - 1 + 1)%Z with (Qceiling (10 * b)) by lia. reflexivity. }
  apply Qlt_shift_div_r; [lra|]. rewrite E. lra.
Qed.
Lemma radbins_spec a b step : a <= b -> 0 < step ->
  exists n, length (radbins a b step) = S n /\
    (forall i, (i <= n)%nat -> nth i (radbins a b step) 0 == minrad a + Qn i * step) /\
    maxrad b <= minrad a + Qn n * step /\ minrad a + Qn n * step < maxrad b + step.
Proof.
  intros Hab Hs. pose proof (minrad_le a). pose proof (maxrad_ge b). set (q := (maxrad b - minrad a) / step).
  assert (Hq : 0 <= q) by (unfold q; apply Qle_shift_div_l; [exact Hs|lra]).
  assert (Hc : (0 <= Qceiling q)%Z).
  { pose proof (Qle_ceiling q). assert (inject_Z 0 <= inject_Z (Qceiling q)) by (change (inject_Z 0) with 0; lra). rewrite <- Zle_Qle in H2. exact H2. }
  exists (Z.to_nat (Qceiling q)). unfold radbins. fold q. rewrite map_length, seq_length.
  split; [lia|].
  assert (EQ : maxrad b - minrad a == q * step) by (unfold q; field; lra).
  assert (QN : Qn (Z.to_nat (Qceiling q)) = inject_Z (Qceiling q)) by (unfold Qn; rewrite Z2Nat.id by exact Hc; reflexivity).
  split; [|split].
  - intros i Hi. set (h := fun i => Qn i * step + minrad a). rewrite (nth_indep (map h _) 0 (h 0%nat)) by (rewrite map_length, seq_length; lia).
    rewrite map_nth, seq_nth by lia. unfold h. cbn [Nat.add]. ring.
  - rewrite QN. assert (q * step <= inject_Z (Qceiling q) * step) by (apply Qmult_le_compat_r; [apply Qle_ceiling|lra]). lra.
  - rewrite QN. pose proof (Qceiling_lt q) as K. assert (E : inject_Z (Qceiling q) == inject_Z (Qceiling q - 1) + 1).
    { change 1 with (inject_Z 1). rewrite <- inject_Z_plus. replace (Qceiling q - 1 + 1)%Z with (Qceiling q) by lia. reflexivity. }
    assert ((inject_Z (Qceiling q - 1)) * step < q * step) by (apply Qmult_lt_compat_r; assumption). rewrite E. lra.
Qed.

(** ** samples *)
Lemma skipn_add {A} a b : forall (l : list A), skipn a (skipn b l) = skipn (b + a) l.
Proof. induction b as [|b IH]; intros l; [reflexivity|]. destruct l as [|x l]; [destruct a; reflexivity|]. cbn. apply IH. Qed.
Lemma samples_concat {A} ngals nsamples : forall (rows : list A), length rows = (nsamples * ngals)%nat ->
  concat (map (fun k => select ngals k rows) (seq 0 nsamples)) = rows /\ forall k, (k < nsamples)%nat -> length (select ngals k rows) = ngals.
Proof.
  induction nsamples as [|n IH]; intros rows Hl.
  - destruct rows; [|discriminate]. split; [reflexivity|intros; lia].
  - cbn in Hl. assert (L : length (skipn ngals rows) = (n * ngals)%nat) by (rewrite skipn_length; lia).
    destruct (IH _ L) as [H1 H2].
    assert (S' : forall k, select ngals (S k) rows = select ngals k (skipn ngals rows)).
    { intros k. unfold select. rewrite skipn_add. f_equal. }
    split.
    + cbn [seq map concat]. rewrite <- seq_shift, map_map. rewrite (map_ext _ (fun k => select ngals k (skipn ngals rows))) by exact S'. rewrite H1.
      unfold select. cbn [Nat.mul skipn]. apply firstn_skipn.
    + intros [|k] Hk; [unfold select; cbn [Nat.mul skipn]; rewrite firstn_length; lia|]. rewrite S'. apply H2. lia.
Qed.

(** ** depth *)
Lemma ins_perm x l : Permutation (ins x l) (x :: l).
Proof. induction l as [|y t IH]; cbn; [reflexivity|]. destruct (Qle_bool x y); [reflexivity|]. rewrite IH. apply perm_swap. Qed.
Lemma sort_perm l : Permutation (sortQ l) l.
Proof. induction l as [|x t IH]; cbn; [reflexivity|]. rewrite ins_perm, IH. reflexivity. Qed.
Lemma median_in l : l <> [] -> exists a b, In a l /\ In b l /\ medianQ l == (a + b) / 2.
Proof.
  intros Hl. assert (P := sort_perm l). assert (L : length (sortQ l) = length l) by (apply Permutation_length, P).
  assert (N : (0 < length l)%nat) by (destruct l; [congruence|cbn; lia]).
  exists (nth ((length l - 1) / 2) (sortQ l) 0), (nth (length l / 2) (sortQ l) 0). split; [|split; [|reflexivity]].
  - apply (Permutation_in _ P), nth_In. rewrite L. pose proof (Nat.div_le_mono (length l - 1) (length l) 2). assert ((length l - 1) / 2 <= length l - 1)%nat by (apply Nat.div_le_upper_bound; lia). lia.
  - apply (Permutation_in _ P), nth_In. rewrite L. apply Nat.div_lt; lia.
Qed.
Lemma median_within l lo hi : l <> [] -> (forall x, In x l -> lo <= x <= hi) -> lo <= medianQ l <= hi.
Proof. intros Hl H. destruct (median_in l Hl) as (a & b & Ha & Hb & E). apply H in Ha. apply H in Hb. rewrite E. split; [apply Qle_shift_div_l; lra|apply Qle_shift_div_r; lra]. Qed.
Lemma sum_within l lo hi : (forall x, In x l -> lo <= x <= hi) -> lo * Qn (length l) <= Qsum l <= hi * Qn (length l).
Proof.
  induction l as [|x t IH]; intros H; cbn [Qsum length].
  - change (Qn 0) with 0. lra.
  - assert (E : Qn (S (length t)) == Qn (length t) + 1) by (unfold Qn; rewrite Nat2Z.inj_succ; unfold Z.succ; rewrite inject_Z_plus; reflexivity).
    rewrite E. pose proof (H x (or_introl eq_refl)). specialize (IH (fun y Hy => H y (or_intror Hy))). lra.
Qed.
Lemma mean_within l lo hi : l <> [] -> (forall x, In x l -> lo <= x <= hi) -> lo <= meanQ l <= hi.
Proof.
  intros Hl H. assert (N : 0 < Qn (length l)) by (apply Qn_pos; destruct l; [congruence|cbn; lia]). destruct (sum_within l lo hi H).
  unfold meanQ. split; [apply Qle_shift_div_l; lra|apply Qle_shift_div_r; lra].
Qed.
Lemma maskdepth_nth unseen ps i p : nth_error ps i = Some p ->
  let vals := map (at_pos unseen) ps in let bad v := Qlt_bool (dv_lim v) 0 in
  exists v, nth_error (calc_maskdepth unseen ps) i = Some v /\
    ((exists q, In q ps /\ bad (at_pos unseen q) = false) ->
       (bad (at_pos unseen p) = false -> v = at_pos unseen p) /\
       (bad (at_pos unseen p) = true -> forall f, (f = dv_lim \/ f = dv_exp \/ f = dv_m50) -> forall lo hi,
          (forall q, In q ps -> bad (at_pos unseen q) = false -> lo <= f (at_pos unseen q) <= hi) -> lo <= f v <= hi)) /\
    ((forall q, In q ps -> bad (at_pos unseen q) = true) -> v = mkDV 1 1000 0).
Proof.
  intros Hp vals bad. set (ok := filter (fun v => negb (bad v)) vals).
  assert (EQ : calc_maskdepth unseen ps = if existsb bad vals then
    match length ok with
    | O => map (fun _ => mkDV 1 1000 0) vals
    | 1%nat | 2%nat => map (fun w => if bad w then mkDV (meanQ (map dv_lim ok)) (meanQ (map dv_exp ok)) (meanQ (map dv_m50 ok)) else w) vals
    | _ => map (fun w => if bad w then mkDV (medianQ (map dv_lim ok)) (medianQ (map dv_exp ok)) (medianQ (map dv_m50 ok)) else w) vals
    end else vals) by reflexivity.
  rewrite EQ. clear EQ. clearbody bad.
  assert (Hv : nth_error vals i = Some (at_pos unseen p)) by (apply map_nth_error, Hp).
  assert (OK : forall w, In w ok <-> exists q, In q ps /\ w = at_pos unseen q /\ bad w = false).
  { intros w. unfold ok, vals. rewrite filter_In, in_map_iff, negb_true_iff. split; [intros [(q & <- & Hq) Hb]; exists q; auto|intros (q & Hq & -> & Hb); split; [exists q; auto|exact Hb]]. }
  assert (FILL : forall g, ok <> [] ->
    (forall f, (f = dv_lim \/ f = dv_exp \/ f = dv_m50) -> forall lo hi, (forall w, In w ok -> lo <= f w <= hi) -> lo <= f g <= hi) ->
    exists v, nth_error (map (fun w => if bad w then g else w) vals) i = Some v /\
      ((exists q, In q ps /\ bad (at_pos unseen q) = false) ->
         (bad (at_pos unseen p) = false -> v = at_pos unseen p) /\
         (bad (at_pos unseen p) = true -> forall f, (f = dv_lim \/ f = dv_exp \/ f = dv_m50) -> forall lo hi,
          (forall q, In q ps -> bad (at_pos unseen q) = false -> lo <= f (at_pos unseen q) <= hi) -> lo <= f v <= hi)) /\
      ((forall q, In q ps -> bad (at_pos unseen q) = true) -> v = mkDV 1 1000 0)).
  { intros g Hne Hg. eexists. split; [apply map_nth_error, Hv|]. split.
    - intros _. split; [intros ->; reflexivity|]. intros ->. intros f Hf lo hi H. apply Hg; [exact Hf|]. intros w Hw. apply OK in Hw. destruct Hw as (q & Hq & -> & Hb). auto.
    - intros H. exfalso. destruct ok as [|w t]; [congruence|]. destruct (proj1 (OK w) (or_introl eq_refl)) as (q & Hq & -> & Hb). rewrite H in Hb by exact Hq. discriminate. }
  assert (MW : forall f lo hi, (forall w, In w ok -> lo <= f w <= hi) -> forall x, In x (map f ok) -> lo <= x <= hi).
  { intros f lo hi H x Hx. apply in_map_iff in Hx. destruct Hx as (w & <- & Hw). apply H, Hw. }
  assert (NE : forall f : depthv -> Q, ok <> [] -> map f ok <> []) by (intros f Hn Hc; destruct ok; [congruence|discriminate]).
  destruct (existsb bad vals) eqn:EX.
  - assert (CASES : ok = [] \/ ok <> []) by (destruct ok; [left; reflexivity|right; discriminate]). destruct CASES as [E0|Hne].
    + rewrite E0. cbn [length]. eexists. split; [apply map_nth_error, Hv|]. split.
      * intros (q & Hq & Hb). exfalso. assert (In (at_pos unseen q) ok) by (apply OK; exists q; auto). rewrite E0 in H. exact H.
      * reflexivity.
    + assert (G1 := FILL (mkDV (meanQ (map dv_lim ok)) (meanQ (map dv_exp ok)) (meanQ (map dv_m50 ok))) Hne).
      assert (G2 := FILL (mkDV (medianQ (map dv_lim ok)) (medianQ (map dv_exp ok)) (medianQ (map dv_m50 ok))) Hne).
      destruct (length ok) as [|[|[|m]]] eqn:EL; [destruct ok; [congruence|discriminate]|apply G1|apply G1|apply G2];
      intros f [-> | [-> | ->]] lo hi H; cbn [dv_lim dv_exp dv_m50];
      ((apply mean_within + apply median_within); [apply NE, Hne|apply MW, H]).
  - assert (AG : forall q, In q ps -> bad (at_pos unseen q) = false).
    { intros q Hq. destruct (bad (at_pos unseen q)) eqn:E; [|reflexivity]. exfalso. assert (existsb bad vals = true) by (apply existsb_exists; exists (at_pos unseen q); split; [apply in_map, Hq|exact E]). congruence. }
    exists (at_pos unseen p). split; [exact Hv|]. split.
    + intros _. split; [reflexivity|]. intros Hb. rewrite AG in Hb; [discriminate|]. eapply nth_error_In, Hp.
    + intros H. exfalso. assert (In p ps) by (eapply nth_error_In, Hp). specialize (H p H0). rewrite AG in H by assumption. discriminate.
Qed.
Lemma maskdepth_len unseen ps : length (calc_maskdepth unseen ps) = length ps.
Proof.
  unfold calc_maskdepth. destruct (existsb _ _); [|apply map_length]. destruct (length (filter _ _)) as [|[|[|m]]]; rewrite !map_length; reflexivity.
Qed.
