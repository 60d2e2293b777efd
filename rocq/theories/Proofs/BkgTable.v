(** Proofs about the background tables. *)
From Coq Require Import QArith Qround Qabs Lqa Sorting.Sorted.
From Verif.Base Require Import Py PyLemmas Fn.
From Verif.Model Require Import Util BkgTable.
From Verif.Spec Require Import Util BkgTable.
From Verif.Proofs Require Import Util.
From Coq Require Import Lqa Lia List. Import ListNotations.
Local Open Scope nat_scope.

(** * arithmetic *)
Lemma Qmin2_le a b : (Qmin2 a b <= a)%Q /\ (Qmin2 a b <= b)%Q.
Proof. unfold Qmin2. destruct (Qle_bool a b) eqn:E; [apply Qle_bool_iff in E|apply Qle_bool_false in E]; lra. Qed.
Lemma Qmax2_ge a b : (a <= Qmax2 a b)%Q /\ (b <= Qmax2 a b)%Q.
Proof. unfold Qmax2. destruct (Qle_bool a b) eqn:E; [apply Qle_bool_iff in E|apply Qle_bool_false in E]; lra. Qed.
Lemma Qmin2_eq a b c d : (a == c)%Q -> (b == d)%Q -> (Qmin2 a b == Qmin2 c d)%Q.
Proof. intros H1 H2. destruct (Qmin2_cases a b) as [[? ->]|[? ->]], (Qmin2_cases c d) as [[? ->]|[? ->]]; lra. Qed.
Lemma Qmax2_eq a b c d : (a == c)%Q -> (b == d)%Q -> (Qmax2 a b == Qmax2 c d)%Q.
Proof. intros H1 H2. destruct (Qmax2_cases a b) as [[? ->]|[? ->]], (Qmax2_cases c d) as [[? ->]|[? ->]]; lra. Qed.
Lemma Qmin2_scale w a b : (0 < w)%Q -> (Qmin2 (w * a) (w * b) == w * Qmin2 a b)%Q.
Proof.
  intros Hw. destruct (Qmin2_cases a b) as [[H ->]|[H ->]], (Qmin2_cases (w * a) (w * b)) as [[H' ->]|[H' ->]]; try reflexivity.
  - assert (0 <= w * (b - a))%Q by (apply Qmult_le_0_compat; lra). lra.
  - assert (0 <= w * (a - b))%Q by (apply Qmult_le_0_compat; lra). lra.
Qed.
Lemma Qmax2_scale w a b : (0 < w)%Q -> (Qmax2 (w * a) (w * b) == w * Qmax2 a b)%Q.
Proof.
  intros Hw. destruct (Qmax2_cases a b) as [[H ->]|[H ->]], (Qmax2_cases (w * a) (w * b)) as [[H' ->]|[H' ->]]; try reflexivity.
  - assert (0 <= w * (b - a))%Q by (apply Qmult_le_0_compat; lra). lra.
  - assert (0 <= w * (a - b))%Q by (apply Qmult_le_0_compat; lra). lra.
Qed.
Lemma share_overlap lo w x p k : (0 < w)%Q -> (x == lo + p * w)%Q -> (share lo w x k == overlap p (Z.of_nat k))%Q.
Proof.
  intros Hw Hx. unfold share, overlap. cbv zeta. set (K := inject_Z (Z.of_nat k)).
  assert (E : (Qmax2 0 (Qmin2 (x + w / 2) (lo + K * w + w) - Qmax2 (x - w / 2) (lo + K * w))
     == w * Qmax2 0 (Qmin2 (p + (1#2)) (K + 1) - Qmax2 (p - (1#2)) K))%Q).
  { rewrite <- Qmax2_scale by exact Hw. apply Qmax2_eq; [ring|].
    transitivity (w * Qmin2 (p + (1#2)) (K + 1) - w * Qmax2 (p - (1#2)) K)%Q; [|ring].
    rewrite <- Qmin2_scale, <- Qmax2_scale by exact Hw.
    assert (E1 : (Qmin2 (x + w / 2) (lo + K * w + w) == Qmin2 (w * (p + (1#2))) (w * (K + 1)) + lo)%Q).
    { transitivity (Qmin2 (w * (p + (1#2)) + lo) (w * (K + 1) + lo)); [apply Qmin2_eq; [rewrite Hx; field|ring]|].
      destruct (Qmin2_cases (w * (p + (1#2)) + lo) (w * (K + 1) + lo)) as [[? ->]|[? ->]], (Qmin2_cases (w * (p + (1#2))) (w * (K + 1))) as [[? ->]|[? ->]]; lra. }
    assert (E2 : (Qmax2 (x - w / 2) (lo + K * w) == Qmax2 (w * (p - (1#2))) (w * K) + lo)%Q).
    { transitivity (Qmax2 (w * (p - (1#2)) + lo) (w * K + lo)); [apply Qmax2_eq; [rewrite Hx; field|ring]|].
      destruct (Qmax2_cases (w * (p - (1#2)) + lo) (w * K + lo)) as [[? ->]|[? ->]], (Qmax2_cases (w * (p - (1#2))) (w * K)) as [[? ->]|[? ->]]; lra. }
    rewrite E1, E2. ring. }
  rewrite E. field. lra.
Qed.

Lemma nbins_pos lo hi w : (lo < hi)%Q -> (0 < w)%Q -> (0 < nbins lo hi w)%Z.
Proof.
  intros H Hw. unfold nbins. assert (Hp : (0 < (hi - lo) / w)%Q) by (apply Qlt_shift_div_l; lra).
  pose proof (Qle_ceiling ((hi - lo) / w)). assert (inject_Z 0 < inject_Z (Qceiling ((hi - lo) / w)))%Q by (unfold inject_Z at 1; lra).
  rewrite <- Zlt_Qlt in H1. exact H1.
Qed.
Lemma injZ_pos n : (0 < n)%Z -> (0 < inject_Z n)%Q.
Proof. intros H. change 0%Q with (inject_Z 0). rewrite <- Zlt_Qlt. exact H. Qed.

(** the position of a value inside of the range *)
Lemma pos_inside lo hi n x : (lo < hi)%Q -> (0 < n)%Z -> (lo <= x)%Q -> (x < hi)%Q ->
  (0 <= (x - lo) * inject_Z n / (hi - lo))%Q /\ ((x - lo) * inject_Z n / (hi - lo) < inject_Z n)%Q.
Proof.
  intros H Hn H1 H2. pose proof (injZ_pos n Hn). split.
  - apply Qle_shift_div_l; [lra|]. rewrite Qmult_0_l. apply Qmult_le_0_compat; lra.
  - apply Qlt_shift_div_r; [lra|]. assert (0 < inject_Z n * (hi - x))%Q by (apply Qmult_lt_0_compat; lra). lra.
Qed.
Lemma pos_x lo hi n x : (lo < hi)%Q -> (0 < n)%Z -> (x == lo + ((x - lo) * inject_Z n / (hi - lo)) * ((hi - lo) / inject_Z n))%Q.
Proof. intros H Hn. pose proof (injZ_pos n Hn). field. lra. Qed.

(** * the table *)
Lemma nth_map_seq {A} (f : nat -> A) n i d : i < n -> nth i (map f (seq 0 n)) d = f i.
Proof. intros H. rewrite nth_indep with (d' := f 0) by (rewrite map_length, seq_length; exact H). rewrite map_nth, seq_nth by exact H. reflexivity. Qed.
Section Table.
  Variables (xlo xhi xs mlo mhi ms : Q) (areas : list Q) (keep : Q -> bool) (floor : Q -> Q).
  Hypothesis Hx : (xlo < xhi)%Q. Hypothesis Hm : (mlo < mhi)%Q. Hypothesis Hxs : (0 < xs)%Q. Hypothesis Hms : (0 < ms)%Q.
  Hypothesis Hkeep : forall m, keep m = true -> (mlo <= m)%Q /\ (m < mhi)%Q.
  Hypothesis Hfloor : forall a b, (a == b)%Q -> (floor a == floor b)%Q.
  Let nx := nbins xlo xhi xs.
  Let nm := nbins mlo mhi ms.
  Lemma table_spec l r : exists t, table xlo xhi xs mlo mhi ms areas keep floor l r = Ok t /\ shape t (Z.to_nat nm) (Z.to_nat nx) /\
    forall m j, m < Z.to_nat nm -> j < Z.to_nat nx ->
      (cell t m j == floor (Qsum (map (fun xm => share xlo ((xhi - xlo) / inject_Z nx) (fst xm) j * share mlo ((mhi - mlo) / inject_Z nm) (snd xm) m)
         (filter (fun xm => Qle_bool xlo (fst xm) && Qlt_bool (fst xm) xhi && keep (snd xm)) (combine l r))))
       / (nth m areas 0 * (ms * xs)))%Q.
  Proof.
    pose proof (nbins_pos _ _ _ Hx Hxs) as Nx. pose proof (nbins_pos _ _ _ Hm Hms) as Nm.
    unfold table. fold nx in Nx |- *. fold nm in Nm |- *. cbv zeta. set (sel := filter _ _).
    set (pos := fun xm : Q * Q => [((fst xm - xlo) * inject_Z nx / (xhi - xlo))%Q; ((snd xm - mlo) * inject_Z nm / (mhi - mlo))%Q]).
    set (ss := map (fun xm => mkSa (pos xm) 1%Q) sel).
    assert (Hsel : forall xm, In xm sel -> (xlo <= fst xm)%Q /\ (fst xm < xhi)%Q /\ (mlo <= snd xm)%Q /\ (snd xm < mhi)%Q).
    { intros xm Hi. apply filter_In in Hi. destruct Hi as [_ Hi]. apply andb_true_iff in Hi. destruct Hi as [Hi Hk]. apply andb_true_iff in Hi. destruct Hi as [H1 H2].
      apply Qle_bool_iff in H1. apply Qlt_bool_iff in H2. destruct (Hkeep _ Hk). auto. }
    assert (Hin : forall s, In s ss -> inside [nx; nm] (sa_pos s)).
    { intros s Hs. apply in_map_iff in Hs. destruct Hs as (xm & <- & Hs). destruct (Hsel _ Hs) as (A & B & C & D).
      cbn [sa_pos]. unfold pos. constructor; [apply pos_inside; assumption|]. constructor; [apply pos_inside; assumption|constructor]. }
    destruct (cic_field true [nx; nm] sa_val ss Hin) as (f & E & Hl & Hv).
    assert (Ec : cic true false [nx; nm] ss = Ok f) by (unfold cic; rewrite E; reflexivity).
    match goal with |- context [cic true false _ ?l] => change l with ss end. rewrite Ec. cbn [bind]. eexists. split; [reflexivity|]. split.
    - split; [rewrite map_length, seq_length; reflexivity|]. intros m Hmm. rewrite nth_map_seq by exact Hmm. rewrite map_length, seq_length. reflexivity.
    - intros m j Hmm Hj. unfold cell. rewrite nth_map_seq by exact Hmm. rewrite nth_map_seq by exact Hj.
      assert (Hc : cell_of [nx; nm] [Z.of_nat j; Z.of_nat m]) by (repeat constructor; lia).
      pose proof (flat_range _ _ Hc) as Hr. cbn [flat] in Hr.
      assert (Hi : j + Z.to_nat nx * m = Z.to_nat (Z.of_nat j + nx * (Z.of_nat m + nm * 0)) ) by nia.
      apply Qmult_comp; [|reflexivity]. apply Hfloor. rewrite Hi, Hv by lia. unfold ss. rewrite map_map. apply Qsum_map_ext. intros xm Hxm. cbn [sa_val sa_pos].
      rewrite Z2Nat.id by lia. change (Z.of_nat j + nx * (Z.of_nat m + nm * 0))%Z with (flat [nx; nm] [Z.of_nat j; Z.of_nat m]).
      rewrite hits_corners; [|apply (Hin (mkSa (pos xm) 1%Q)); apply in_map_iff; eauto|exact Hc].
      unfold pos. cbn [weight weight1]. destruct (Hsel _ Hxm) as (A & B & C & D).
      rewrite (share_overlap xlo _ (fst xm) ((fst xm - xlo) * inject_Z nx / (xhi - xlo)) j); [|apply Qlt_shift_div_l; [apply injZ_pos, Nx|lra]|apply pos_x; assumption].
      rewrite (share_overlap mlo _ (snd xm) ((snd xm - mlo) * inject_Z nm / (mhi - mlo)) m); [|apply Qlt_shift_div_l; [apply injZ_pos, Nm|lra]|apply pos_x; assumption].
      ring.
  Qed.
End Table.

(** * filling the arrays *)
Lemma put_at {A} (d : list A) r vals : List.length vals <= List.length r -> put (d ++ r) (List.length d) vals = d ++ vals ++ skipn (List.length vals) r.
Proof.
  intros H. unfold put. rewrite firstn_app, Nat.sub_diag, firstn_all, firstn_O, app_nil_r. f_equal. f_equal.
  rewrite skipn_app. rewrite skipn_all2 by lia. cbn [app]. f_equal. lia.
Qed.
Lemma skipn_repeat {A} (x : A) n k : skipn n (repeat x k) = repeat x (k - n).
Proof. revert k. induction n as [|n IH]; intros k; [now rewrite Nat.sub_0_r|]. destruct k; [reflexivity|]. exact (IH k). Qed.
Lemma combine_repeat_map {A B} (x : A) (l : list B) n : List.length l <= n -> combine (repeat x n) l = map (fun g => (x, g)) l.
Proof. revert n. induction l as [|y l IH]; intros n H; [now destruct n|]. cbn [List.length] in H. destruct n; [lia|]. cbn. f_equal. apply IH. lia. Qed.
Lemma firstn_repeat {A} (x : A) n k : n <= k -> firstn n (repeat x k) = repeat x n.
Proof. revert k. induction n as [|n IH]; intros k H; [reflexivity|]. destruct k; [lia|]. cbn. f_equal. apply IH. lia. Qed.

Lemma fill_spec mlo cut far pix : forall dm dc, List.length dm = List.length dc ->
  let rest := List.length (List.concat pix) in
  fill mlo cut (List.length dm + rest) (List.length dm) pix (dm ++ repeat 0%Q rest) (dc ++ repeat far rest)
   = (dm ++ map g_mag (List.concat pix), dc ++ map (fun g => if used mlo cut g then g_chi g else far) (List.concat pix)).
Proof.
  induction pix as [|gals pix IH]; intros dm dc Hd rest; cbn [fill].
  - subst rest. cbn. reflexivity.
  - subst rest. cbn [List.concat]. rewrite app_length. set (n := List.length gals). set (rest := List.length (List.concat pix)).
    destruct (Nat.ltb_spec (List.length dm) (List.length dm + (n + rest))) as [Hlt|Hge].
    + destruct (Nat.eqb_spec n 0) as [Hn|Hn].
      * assert (gals = []) by (destruct gals; [reflexivity|discriminate]). subst gals. cbn in n. subst n. cbn [app Nat.add]. apply IH, Hd.
      * rewrite put_at by (rewrite map_length, repeat_length; lia). rewrite map_length. fold n. rewrite skipn_repeat.
        replace (n + rest - n) with rest by lia.
        assert (Hsk : skipn (List.length dm) (dc ++ repeat far (n + rest)) = repeat far (n + rest)).
        { rewrite Hd, skipn_app, skipn_all2, Nat.sub_diag by lia. reflexivity. }
        rewrite Hsk. rewrite firstn_repeat by lia. rewrite combine_repeat_map by (fold n; lia). rewrite map_map. cbn [fst snd].
        assert (Hp : forall vals, List.length vals <= n + rest -> put (dc ++ repeat far (n + rest)) (List.length dm) vals = dc ++ vals ++ skipn (List.length vals) (repeat far (n + rest))).
        { intros vals Hv. rewrite Hd. apply put_at. rewrite repeat_length. exact Hv. }
        rewrite Hp by (rewrite map_length; fold n; lia). rewrite map_length. fold n. rewrite skipn_repeat.
        replace (n + rest - n) with rest by lia.
        rewrite !app_assoc.
        replace (List.length dm + (n + rest)) with (List.length (dm ++ map g_mag gals) + rest) by (rewrite app_length, map_length; fold n; lia).
        replace (List.length dm + n) with (List.length (dm ++ map g_mag gals)) by (rewrite app_length, map_length; fold n; lia).
        rewrite (IH (dm ++ map g_mag gals)) by (rewrite !app_length, !map_length; lia).
        rewrite !map_app, <- !app_assoc. reflexivity.
    + assert (n = 0) by lia. assert (rest = 0) by lia.
      assert (gals = []) by (destruct gals; [reflexivity|discriminate]). subst gals.
      assert (List.concat pix = []) by (destruct (List.concat pix); [reflexivity|discriminate]).
      rewrite H1. rewrite H, H0. reflexivity.
Qed.
Lemma fill_all mlo cut far pix : let n := List.length (List.concat pix) in
  fill mlo cut n 0 pix (repeat 0%Q n) (repeat far n)
   = (map g_mag (List.concat pix), map (fun g => if used mlo cut g then g_chi g else far) (List.concat pix)).
Proof. exact (fill_spec mlo cut far pix [] [] eq_refl). Qed.

Lemma filter_map_comm {A B} (f : A -> B) (p : B -> bool) l : filter p (map f l) = map f (filter (fun x => p (f x)) l).
Proof. induction l as [|x l IH]; cbn; [reflexivity|]. destruct (p (f x)); cbn; rewrite IH; reflexivity. Qed.
Lemma combine_map2 {A B C} (f : A -> B) (g : A -> C) l : combine (map f l) (map g l) = map (fun x => (f x, g x)) l.
Proof. induction l; cbn; congruence. Qed.
Lemma filter_ext_in' {A} (p q : A -> bool) l : (forall x, In x l -> p x = q x) -> filter p l = filter q l.
Proof. induction l as [|x l IH]; intros H; cbn; [reflexivity|]. rewrite (H x) by (left; reflexivity). rewrite IH by (intros; apply H; now right). reflexivity. Qed.

(** zred slots: what a selection that rejects the empty slots keeps *)
Lemma filter_repeat_nil {A} (p : A -> bool) x n : p x = false -> filter p (repeat x n) = [].
Proof. intros H. induction n; cbn; [reflexivity|]. rewrite H. exact IHn. Qed.
Lemma combine_repeat {A B} (x : A) (y : B) n : combine (repeat x n) (repeat y n) = repeat (x, y) n.
Proof. induction n; cbn; congruence. Qed.
Lemma combine_app {A B} (a b : list A) (c d : list B) : List.length a = List.length c -> combine (a ++ b) (c ++ d) = combine a c ++ combine b d.
Proof. revert c. induction a as [|x a IH]; intros [|y c] H; cbn in *; try discriminate; [reflexivity|]. f_equal. apply IH. lia. Qed.
Lemma filter_len {A} (p : A -> bool) l : List.length (filter p l) <= List.length l.
Proof. induction l; cbn; [lia|]. destruct (p a); cbn; lia. Qed.
Lemma zfill_spec (P : Q * Q -> bool) maxc pix : P ((-(1))%Q, 0%Q) = false -> forall dm dz, List.length dm = List.length dz ->
  let rest := List.length (List.concat pix) in
  exists mags zreds, zfill maxc (List.length dm + rest) (List.length dm) pix (dm ++ repeat 0%Q rest) (dz ++ repeat (-(1))%Q rest) = (mags, zreds) /\
    filter P (combine zreds mags) = filter P (combine dz dm) ++ filter P (map (fun g => (zg_zred g, zg_mag g)) (filter (fun g => Qlt_bool (zg_chi g) maxc) (List.concat pix))).
Proof.
  intros HP. induction pix as [|gals pix IH]; intros dm dz Hd rest; cbn [zfill].
  - subst rest. cbn. rewrite !app_nil_r. eauto.
  - subst rest. cbn [List.concat]. rewrite app_length. set (n := List.length gals). set (rest := List.length (List.concat pix)).
    destruct (Nat.ltb_spec (List.length dm) (List.length dm + (n + rest))) as [Hlt|Hge].
    + destruct (Nat.eqb_spec n 0) as [Hn|Hn].
      * assert (gals = []) by (destruct gals; [reflexivity|discriminate]). subst gals. cbn in n. subst n. cbn [app Nat.add]. apply IH, Hd.
      * set (use := filter (fun g => Qlt_bool (zg_chi g) maxc) gals).
        pose proof (filter_len (fun g => Qlt_bool (zg_chi g) maxc) gals) as Hu. fold use n in Hu.
        assert (E1 : (if Nat.ltb 0 (List.length use) then put (dm ++ repeat 0%Q (n + rest)) (List.length dm) (map zg_mag use) else dm ++ repeat 0%Q (n + rest))
                     = (dm ++ map zg_mag use ++ repeat 0%Q (n - List.length use)) ++ repeat 0%Q rest).
        { assert (E : put (dm ++ repeat 0%Q (n + rest)) (List.length dm) (map zg_mag use) = (dm ++ map zg_mag use ++ repeat 0%Q (n - List.length use)) ++ repeat 0%Q rest).
          { rewrite put_at by (rewrite map_length, repeat_length; lia). rewrite map_length, skipn_repeat, <- !app_assoc, <- repeat_app.
            do 2 f_equal. f_equal. lia. }
          destruct (Nat.ltb_spec 0 (List.length use)); [exact E|]. rewrite <- E. assert (use = []) by (destruct use; [reflexivity|cbn in *; lia]).
          rewrite H0. unfold put. cbn [map List.length app]. rewrite Nat.add_0_r. symmetry. apply firstn_skipn. }
        assert (E2 : (if Nat.ltb 0 (List.length use) then put (dz ++ repeat (-(1))%Q (n + rest)) (List.length dm) (map zg_zred use) else dz ++ repeat (-(1))%Q (n + rest))
                     = (dz ++ map zg_zred use ++ repeat (-(1))%Q (n - List.length use)) ++ repeat (-(1))%Q rest).
        { assert (E : put (dz ++ repeat (-(1))%Q (n + rest)) (List.length dm) (map zg_zred use) = (dz ++ map zg_zred use ++ repeat (-(1))%Q (n - List.length use)) ++ repeat (-(1))%Q rest).
          { rewrite Hd. rewrite put_at by (rewrite map_length, repeat_length; lia). rewrite map_length, skipn_repeat, <- !app_assoc, <- repeat_app.
            do 2 f_equal. f_equal. lia. }
          destruct (Nat.ltb_spec 0 (List.length use)); [exact E|]. rewrite <- E. assert (use = []) by (destruct use; [reflexivity|cbn in *; lia]).
          rewrite H0. unfold put. cbn [map List.length app]. rewrite Nat.add_0_r. symmetry. apply firstn_skipn. }
        rewrite E1, E2.
        set (dm' := dm ++ map zg_mag use ++ repeat 0%Q (n - List.length use)). set (dz' := dz ++ map zg_zred use ++ repeat (-(1))%Q (n - List.length use)).
        assert (Hm' : List.length dm' = List.length dm + n) by (unfold dm'; rewrite !app_length, map_length, repeat_length; lia).
        assert (Hz' : List.length dm' = List.length dz') by (rewrite Hm'; unfold dz'; rewrite !app_length, map_length, repeat_length; lia).
        replace (List.length dm + (n + rest)) with (List.length dm' + rest) by lia. rewrite <- Hm'.
        destruct (IH dm' dz' Hz') as (mags & zreds & E & F). exists mags, zreds. split; [exact E|]. rewrite F.
        unfold dm', dz'. rewrite !combine_app by (rewrite ?map_length; congruence). rewrite combine_repeat, combine_map2, !filter_app, (filter_repeat_nil P _ _ HP), app_nil_r.
        rewrite map_app, filter_app, <- app_assoc. reflexivity.
    + assert (n = 0) by lia. assert (rest = 0) by lia.
      assert (gals = []) by (destruct gals; [reflexivity|discriminate]). subst gals.
      assert (List.concat pix = []) by (destruct (List.concat pix); [reflexivity|discriminate]).
      rewrite H1. rewrite H, H0. cbn [Nat.add repeat app filter map]. rewrite !app_nil_r. eauto.
Qed.
Lemma zfill_all (P : Q * Q -> bool) maxc pix : P ((-(1))%Q, 0%Q) = false -> let n := List.length (List.concat pix) in
  exists mags zreds, zfill maxc n 0 pix (repeat 0%Q n) (repeat (-(1))%Q n) = (mags, zreds) /\
    filter P (combine zreds mags) = filter P (map (fun g => (zg_zred g, zg_mag g)) (filter (fun g => Qlt_bool (zg_chi g) maxc) (List.concat pix))).
Proof. intros HP. exact (zfill_spec P maxc pix HP [] [] eq_refl). Qed.

(** * the magnitude limit *)
Lemma bins_nth lo hi w i : i < Z.to_nat (nbins lo hi w) -> nth_error (bins lo hi w) i = Some (inject_Z (Z.of_nat i) * w + lo)%Q.
Proof. intros H. unfold bins. rewrite nth_error_map. rewrite (nth_error_nth' _ 0) by (rewrite seq_length; exact H). rewrite seq_nth by exact H. reflexivity. Qed.
Lemma mag_cut_ok lo hi w zl : (lo < hi)%Q -> (0 < w)%Q -> exists k : Z, (0 <= k < nbins lo hi w)%Z /\
  k = clipZ 0 (nbins lo hi w - 1) (Qtrunc (((if Qle_bool hi zl then (hi - (1#100))%Q else zl) - lo) * inject_Z (nbins lo hi w) / (hi - lo))%Q) /\
  mag_cut lo hi w zl = Ok (inject_Z k * w + lo + w)%Q.
Proof.
  intros H Hw. pose proof (nbins_pos _ _ _ H Hw) as N. unfold mag_cut. cbv zeta. set (k := clipZ _ _ _). exists k.
  assert (Hk : (0 <= k < nbins lo hi w)%Z) by (unfold k, clipZ; lia). split; [exact Hk|]. split; [reflexivity|].
  unfold py_index. assert (Hl : List.length (bins lo hi w) = Z.to_nat (nbins lo hi w)) by (unfold bins; rewrite map_length, seq_length; reflexivity).
  rewrite Hl. rewrite Z2Nat.id by lia. destruct (Z.ltb_spec k 0); [lia|]. destruct (Z.leb_spec (nbins lo hi w) k); [lia|]. cbn [orb].
  destruct (Z.ltb_spec k 0); [lia|]. cbn [orb]. rewrite bins_nth by lia. cbn [bind]. rewrite Z2Nat.id by lia. reflexivity.
Qed.
Lemma whole_nbins lo hi w n : (0 < w)%Q -> whole lo hi w n -> nbins lo hi w = Z.of_nat n.
Proof.
  intros Hw H. unfold whole in H. unfold nbins.
  assert (E : ((hi - lo) / w == inject_Z (Z.of_nat n))%Q) by (rewrite H; field; lra). rewrite E. apply Qceiling_Z.
Qed.
Lemma whole_width lo hi w n : (lo < hi)%Q -> whole lo hi w n -> ((hi - lo) / inject_Z (Z.of_nat n) == w)%Q.
Proof.
  intros H1 H. unfold whole in H. destruct n; [change (inject_Z (Z.of_nat 0)) with 0%Q in H; lra|].
  pose proof (injZ_pos (Z.of_nat (S n)) ltac:(lia)). rewrite H. field. lra.
Qed.
Lemma Qtrunc_neg p : (p < 0)%Q -> (Qtrunc p <= 0)%Z.
Proof.
  intros H. unfold Qtrunc. destruct p as [a b]. unfold Qlt in H. cbn in *. assert (a < 0)%Z by lia.
  rewrite <- (Z.opp_involutive a), Z.quot_opp_l by lia. pose proof (Z.quot_pos (- a) (Z.pos b)). lia.
Qed.
Lemma mag_cut_end lo hi w zl n : (lo < hi)%Q -> (0 < w)%Q -> whole lo hi w n ->
  exists e, mag_cut lo hi w zl = Ok e /\ bin_end lo w (if Qle_bool hi zl then (hi - (1#100))%Q else zl) e.
Proof.
  intros H Hw Hn. destruct (mag_cut_ok lo hi w zl H Hw) as (k & Hk & Ek & E). eexists. split; [exact E|].
  rewrite (whole_nbins _ _ _ _ Hw Hn) in *. set (x := if Qle_bool hi zl then (hi - (1#100))%Q else zl) in *.
  assert (Hx : (x < hi)%Q) by (unfold x; destruct (Qle_bool hi zl) eqn:E0; [lra|apply Qle_bool_false in E0; exact E0]).
  exists (S (Z.to_nat k)).
  assert (Ez : (inject_Z (Z.of_nat (S (Z.to_nat k))) == inject_Z k + 1)%Q).
  { replace (Z.of_nat (S (Z.to_nat k))) with (k + 1)%Z by lia. rewrite inject_Z_plus. reflexivity. }
  split; [rewrite Ez; ring|]. split; [lia|].
  assert (N : (0 < Z.of_nat n)%Z) by lia. pose proof (whole_width _ _ _ _ H Hn) as Wd.
  set (p := ((x - lo) * inject_Z (Z.of_nat n) / (hi - lo))%Q) in *.
  assert (Px : (x == lo + p * w)%Q) by (rewrite <- Wd; apply pos_x; assumption).
  destruct (Qlt_le_dec p 0) as [Hp|Hp].
  - pose proof (Qtrunc_neg p Hp). assert (k = 0)%Z by (rewrite Ek; unfold clipZ; lia). rewrite H1. cbn [inject_Z]. split; [|left; reflexivity].
    assert (0 <= (0 - p) * w)%Q by (apply Qmult_le_0_compat; lra). change (inject_Z 0) with 0%Q. lra.
  - assert (Hp2 : (p < inject_Z (Z.of_nat n))%Q).
    { destruct (Qlt_le_dec x lo) as [Hc|Hc]; [|apply pos_inside; assumption].
      assert (0 < (lo - x) * inject_Z (Z.of_nat n))%Q by (apply Qmult_lt_0_compat; [lra|apply injZ_pos, N]).
      assert (p < 0)%Q; [|lra]. unfold p. apply Qlt_shift_div_r; lra. }
    destruct (trunc_spec p (Z.of_nat n) Hp Hp2) as (f & Ef & F0 & F1 & Hq).
    assert (k = Qtrunc p) by (rewrite Ek; unfold clipZ; lia). rewrite H0 in *. clear Ek.
    assert (0 < (1 - f) * w)%Q by (apply Qmult_lt_0_compat; lra). assert (0 <= f * w)%Q by (apply Qmult_le_0_compat; lra).
    set (K := inject_Z (Qtrunc p)) in *. assert (Ex : (x == lo + (K + f) * w)%Q) by (rewrite <- Ef; exact Px). clearbody K. clear Px Ef E.
    split; [lra|]. right. lra.
Qed.

(** * interpolation *)
Lemma mix_eq t u v t' u' v' : (t == t')%Q -> (u == u')%Q -> (v == v')%Q -> (mix t u v == mix t' u' v')%Q.
Proof. intros H1 H2 H3. unfold mix. rewrite H1, H2, H3. reflexivity. Qed.
Lemma mix_nonneg t u v : (0 <= t)%Q -> (t <= 1)%Q -> (0 <= u)%Q -> (0 <= v)%Q -> (0 <= mix t u v)%Q.
Proof. intros. unfold mix. assert (0 <= (1 - t) * u)%Q by (apply Qmult_le_0_compat; lra). assert (0 <= t * v)%Q by (apply Qmult_le_0_compat; lra). lra. Qed.
Lemma mix_ge t u v lo : (0 <= t)%Q -> (t <= 1)%Q -> (lo <= u)%Q -> (lo <= v)%Q -> (lo <= mix t u v)%Q.
Proof. intros. unfold mix. assert (0 <= (1 - t) * (u - lo))%Q by (apply Qmult_le_0_compat; lra). assert (0 <= t * (v - lo))%Q by (apply Qmult_le_0_compat; lra). lra. Qed.
Lemma lin_frac xs x k t : lin xs x k t -> (0 <= t)%Q /\ (t <= 1)%Q.
Proof.
  intros (a & b & _ & _ & Hab & [(H1 & H2 & H3)|[(_ & _ & H)|(_ & _ & H)]]); [|lra|lra].
  split; apply Qnot_lt_le; intros Hc.
  - assert (0 < (0 - t) * (b - a))%Q by (apply Qmult_lt_0_compat; lra). lra.
  - assert (0 < (t - 1) * (b - a))%Q by (apply Qmult_lt_0_compat; lra). lra.
Qed.
Lemma frac_div a b x t : (a < b)%Q -> (t * (b - a) == x - a)%Q -> (t == (x - a) / (b - a))%Q.
Proof. intros H E. rewrite <- E. field. lra. Qed.
Lemma SS_head_lt x xs k a : StronglySorted Qlt (x :: xs) -> nth_error xs k = Some a -> (x < a)%Q.
Proof. intros H E. inversion H as [|? ? _ Hf]; subst. rewrite Forall_forall in Hf. apply Hf. eapply nth_error_In, E. Qed.
Lemma interp_from_lin xs : forall fs x0 f0 x k t u v, StronglySorted Qlt (x0 :: xs) -> List.length fs = List.length xs -> (x0 < x)%Q ->
  lin (x0 :: xs) x k t -> nth_error (f0 :: fs) k = Some u -> nth_error (f0 :: fs) (S k) = Some v ->
  (interp_from x0 f0 (combine xs fs) x == mix t u v)%Q.
Proof.
  induction xs as [|x1 xs IH]; intros fs x0 f0 x k t u v Hs Hl Hx (a & b & Ha & Hb & Hab & Ht) Hu Hv.
  - destruct k; cbn in Hb; [discriminate|]. destruct k; discriminate.
  - destruct fs as [|f1 fs]; [discriminate|]. cbn [combine interp_from].
    assert (Hs' : StronglySorted Qlt (x1 :: xs)) by (inversion Hs; assumption).
    assert (H01 : (x0 < x1)%Q) by (apply (SS_head_lt x0 (x1 :: xs) 0); [exact Hs|reflexivity]).
    destruct k as [|k].
    + cbn in Ha, Hb, Hu, Hv. injection Ha as <-. injection Hb as <-. injection Hu as <-. injection Hv as <-.
      destruct (Qle_bool x x1) eqn:E; [apply Qle_bool_iff in E|apply Qle_bool_false in E].
      * assert (Et : (t * (x1 - x0) == x - x0)%Q).
        { destruct Ht as [(_ & _ & H)|[(_ & H & _)|(_ & H & H')]]; [exact H|lra|]. assert (x == x1)%Q by lra. rewrite H', H0. ring. }
        pose proof (frac_div _ _ _ _ Hab Et) as Ed. unfold mix. rewrite Ed. field. lra.
      * destruct Ht as [(_ & H & _)|[(_ & H & _)|(Hlen & _ & H')]]; [lra|lra|].
        cbn in Hlen. assert (xs = []) by (destruct xs; [reflexivity|cbn in Hlen; lia]). subst xs. cbn [combine interp_from]. unfold mix. rewrite H'. ring.
    + cbn [nth_error] in Ha, Hu. change (nth_error (x1 :: xs) (S k) = Some b) in Hb. change (nth_error (f1 :: fs) (S k) = Some v) in Hv.
      assert (H1a : (x1 <= a)%Q).
      { destruct k; [cbn in Ha; injection Ha as <-; lra|]. apply Qlt_le_weak. apply (SS_head_lt x1 xs k); assumption. }
      destruct (Qle_bool x x1) eqn:E; [apply Qle_bool_iff in E|apply Qle_bool_false in E].
      * destruct Ht as [(H1 & _ & H)|[(H & _)|(_ & H & _)]]; [|discriminate|lra].
        destruct k; [|assert (x1 < a)%Q by (apply (SS_head_lt x1 xs k); assumption); lra].
        cbn in Ha, Hu. injection Ha as <-. injection Hu as <-. assert (Ex : (x == x1)%Q) by lra.
        assert (Et : (t == 0)%Q) by (rewrite (frac_div _ _ _ _ Hab H), Ex; field; lra). unfold mix. rewrite Et, Ex. field. lra.
      * apply (IH fs x1 f1 x k t u v Hs'); try assumption; [cbn in Hl; lia|].
        exists a, b. repeat split; try assumption. destruct Ht as [H|[(H & _)|(H & H' & H'')]]; [left; exact H|discriminate|].
        right. right. repeat split; try assumption. cbn [List.length] in *. lia.
Qed.
Lemma np_interp_lin x xp fp k t u v : StronglySorted Qlt xp -> List.length fp = List.length xp -> lin xp x k t ->
  nth_error fp k = Some u -> nth_error fp (S k) = Some v -> exists y, np_interp x xp fp = Ok y /\ (y == mix t u v)%Q.
Proof.
  intros Hs Hl Hlin Hu Hv. destruct xp as [|x0 xs]; [destruct Hlin as (a & b & H & _); destruct k; discriminate|].
  destruct fp as [|f0 fs]; [discriminate|]. unfold np_interp. cbn [combine]. eexists. split; [reflexivity|].
  destruct (Qle_bool x x0) eqn:E; [apply Qle_bool_iff in E|apply Qle_bool_false in E].
  - destruct Hlin as (a & b & Ha & Hb & Hab & Ht).
    assert (H0a : k = 0 \/ (x0 < a)%Q) by (destruct k; [now left|right; apply (SS_head_lt x0 xs k); [exact Hs|exact Ha]]).
    destruct H0a as [->|H0a].
    + cbn in Ha, Hu. injection Ha as <-. injection Hu as <-.
      assert (Et : (t == 0)%Q).
      { destruct Ht as [(H1 & _ & H)|[(_ & _ & H)|(_ & H & _)]]; [|exact H|lra]. rewrite (frac_div _ _ _ _ Hab H). assert (Ex : (x == x0)%Q) by lra. rewrite Ex. field. lra. }
      unfold mix. rewrite Et. ring.
    + destruct Ht as [(H1 & _ & H)|[(-> & H & H')|(_ & H & _)]]; [lra| |lra]. cbn in Ha. injection Ha as <-. lra.
  - apply (interp_from_lin xs fs x0 f0 x k); try assumption. cbn in Hl; lia.
Qed.

Lemma all_ok_spec {A B} (f : A -> res B) (P : A -> B -> Prop) l : (forall x, In x l -> exists y, f x = Ok y /\ P x y) ->
  exists ys, all_ok f l = Ok ys /\ List.length ys = List.length l /\ forall i x, nth_error l i = Some x -> exists y, nth_error ys i = Some y /\ P x y.
Proof.
  induction l as [|x l IH]; intros H; cbn [all_ok].
  - exists []. repeat split. intros [|i] x E; discriminate.
  - destruct (H x (or_introl eq_refl)) as (y & E & Py). destruct IH as (ys & Eys & Hl & Hn); [intros; apply H; now right|].
    rewrite E. cbn [bind]. rewrite Eys. cbn [bind]. exists (y :: ys). repeat split; [cbn; lia|]. intros [|i] z Ez; cbn in *; [injection Ez as <-; eauto|apply Hn, Ez].
Qed.
Lemma ids_nth {A} (l : list A) i : i < List.length l -> nth_error (ids l) i = Some i.
Proof. intros H. unfold ids. rewrite (nth_error_nth' _ 0) by (rewrite seq_length; exact H). rewrite seq_nth by exact H. reflexivity. Qed.
Lemma ids_len {A} (l : list A) : List.length (ids l) = List.length l.
Proof. apply seq_length. Qed.
Lemma lin_lt xs x k t : lin xs x k t -> S k < List.length xs.
Proof. intros (a & b & _ & H & _). apply nth_error_Some. congruence. Qed.
Lemma pos0_id v : (0 <= v)%Q -> pos0 v = v.
Proof. intros H. unfold pos0. destruct (Qlt_bool v 0) eqn:E; [apply Qlt_bool_iff in E; lra|reflexivity]. Qed.
Lemma pos0_nonneg v : (0 <= pos0 v)%Q.
Proof. unfold pos0. destruct (Qlt_bool v 0) eqn:E; [lra|apply Qlt_bool_false in E; exact E]. Qed.

Section Fine.
  Variable s : stored.
  Hypothesis Sm : StronglySorted Qlt (s_mag s). Hypothesis Sc : StronglySorted Qlt (s_chi s). Hypothesis Sz : StronglySorted Qlt (s_z s).
  Hypothesis Hn : forall m c z, (0 <= s_sig s m c z)%Q.
  Variables (mag chi z : Q) (km kc kz : nat) (tm tc tz : Q).
  Hypothesis Lm : lin (s_mag s) mag km tm. Hypothesis Lc : lin (s_chi s) chi kc tc. Hypothesis Lz : lin (s_z s) z kz tz.
  Let along_m c i := mix tm (s_sig s km c i) (s_sig s (S km) c i).
  Let along_c i := mix tc (along_m kc i) (along_m (S kc) i).
  Lemma fine_mag_eq c i : exists y, fine_mag s mag c i = Ok y /\ (y == along_m c i)%Q /\ (0 <= y)%Q.
  Proof.
    pose proof (lin_lt _ _ _ _ Lm). pose proof (lin_frac _ _ _ _ Lm). unfold fine_mag.
    destruct (np_interp_lin mag (s_mag s) (map (fun m => s_sig s m c i) (ids (s_mag s))) km tm (s_sig s km c i) (s_sig s (S km) c i)) as (y & E & Ey); try assumption.
    - rewrite map_length. apply ids_len.
    - rewrite nth_error_map, ids_nth by lia. reflexivity.
    - rewrite nth_error_map, ids_nth by lia. reflexivity.
    - rewrite E. cbn [bind]. exists (pos0 y). split; [reflexivity|]. split; [|apply pos0_nonneg]. rewrite pos0_id; [exact Ey|]. rewrite Ey. apply mix_nonneg; try apply Hn; lra.
  Qed.
  Lemma fine_chi_eq i : exists y, fine_chi s mag chi i = Ok y /\ (y == along_c i)%Q /\ (0 <= y)%Q.
  Proof.
    pose proof (lin_lt _ _ _ _ Lc). pose proof (lin_frac _ _ _ _ Lc). unfold fine_chi.
    destruct (all_ok_spec (fun c => fine_mag s mag c i) (fun c y => (y == along_m c i)%Q /\ (0 <= y)%Q) (ids (s_chi s))) as (fp & E & Hl & Hv); [intros; apply fine_mag_eq|].
    rewrite E. cbn [bind]. destruct (Hv kc kc) as (u & Eu & Hu & Hu0); [apply ids_nth; lia|]. destruct (Hv (S kc) (S kc)) as (v & Ev & Hv' & Hv0); [apply ids_nth; lia|].
    destruct (np_interp_lin chi (s_chi s) fp kc tc u v) as (y & E' & Ey); try assumption; [rewrite Hl; apply ids_len|].
    rewrite E'. cbn [bind]. exists (pos0 y). split; [reflexivity|]. split; [|apply pos0_nonneg]. rewrite pos0_id.
    - rewrite Ey. apply mix_eq; [reflexivity|exact Hu|exact Hv'].
    - rewrite Ey. apply mix_nonneg; lra.
  Qed.
  Lemma fine_z_eq : exists y, fine_z s mag chi z = Ok y /\ (y == mix tz (along_c kz) (along_c (S kz)))%Q /\ (0 <= y)%Q.
  Proof.
    pose proof (lin_lt _ _ _ _ Lz). pose proof (lin_frac _ _ _ _ Lz). unfold fine_z.
    destruct (all_ok_spec (fun i => fine_chi s mag chi i) (fun i y => (y == along_c i)%Q /\ (0 <= y)%Q) (ids (s_z s))) as (fp & E & Hl & Hv); [intros; apply fine_chi_eq|].
    rewrite E. cbn [bind]. destruct (Hv kz kz) as (u & Eu & Hu & Hu0); [apply ids_nth; lia|]. destruct (Hv (S kz) (S kz)) as (v & Ev & Hv' & Hv0); [apply ids_nth; lia|].
    destruct (np_interp_lin z (s_z s) fp kz tz u v) as (y & E' & Ey); try assumption; [rewrite Hl; apply ids_len|].
    rewrite E'. cbn [bind]. exists (pos0 y). split; [reflexivity|]. split; [|apply pos0_nonneg]. rewrite pos0_id.
    - rewrite Ey. apply mix_eq; [reflexivity|exact Hu|exact Hv'].
    - rewrite Ey. apply mix_nonneg; lra.
  Qed.
End Fine.

Lemma fine_nonneg s mag chi z y : fine_z s mag chi z = Ok y -> (0 <= y)%Q.
Proof.
  unfold fine_z. destruct (all_ok _ _) as [fp|]; [|discriminate]. cbn [bind]. destruct (np_interp _ _ _) as [v|]; [|discriminate]. cbn [bind]. intros [= <-]. apply pos0_nonneg.
Qed.

(** * the zred table *)
Lemma lin_ext_lt xs x k t : lin_ext xs x k t -> S k < List.length xs.
Proof. intros (a & b & _ & H & _). apply nth_error_Some. congruence. Qed.
Lemma interpol_lin v xs x k t u w : StronglySorted Qlt xs -> List.length v = List.length xs -> lin_ext xs x k t ->
  nth_error v k = Some u -> nth_error v (S k) = Some w -> exists y, interpol v xs x = Ok y /\ (y == mix t u w)%Q.
Proof.
  intros Hs Hl (a & b & Ha & Hb & Hab & Ht & H1 & H2) Hu Hw.
  destruct (interpol_on v xs x k a b u w Hs Hl Ha Hb Hu Hw) as (y & E & Ho); [tauto|tauto|].
  exists y. split; [exact E|]. unfold on_line in Ho. pose proof (frac_div _ _ _ _ Hab Ht) as Ed.
  assert (Ey : (y == (x - a) * (w - u) / (b - a) + u)%Q) by (rewrite <- Ho; field; lra).
  unfold mix. rewrite Ed, Ey. field. lra.
Qed.
Lemma fold_min l : forall x, (fold_left Qmin2 l x <= x)%Q /\ forall y, In y l -> (fold_left Qmin2 l x <= y)%Q.
Proof.
  induction l as [|a l IH]; intros x; cbn [fold_left]; [split; [lra|intros y []]|].
  destruct (IH (Qmin2 x a)) as [H1 H2]. destruct (Qmin2_le x a) as [H3 H4]. split; [lra|]. intros y [<-|Hy]; [lra|auto].
Qed.
Lemma fold_min_in l : forall x, In (fold_left Qmin2 l x) (x :: l).
Proof.
  induction l as [|a l IH]; intros x; cbn [fold_left]; [now left|]. destruct (IH (Qmin2 x a)) as [H|H]; [|right; right; exact H].
  rewrite <- H. unfold Qmin2. destruct (Qle_bool x a); [now left|right; now left].
Qed.
Lemma zfloor_spec s : 0 < List.length (zs_mag s) -> 0 < List.length (zs_z s) ->
  exists fl, zfloor s = Ok fl /\
    (exists m z, m < List.length (zs_mag s) /\ z < List.length (zs_z s) /\ fl = zs_sig s m z) /\
    forall m z, m < List.length (zs_mag s) -> z < List.length (zs_z s) -> (fl <= zs_sig s m z)%Q.
Proof.
  intros Hm Hz. unfold zfloor.
  assert (Hin : forall q, In q (zs_all s) <-> exists m z, m < List.length (zs_mag s) /\ z < List.length (zs_z s) /\ q = zs_sig s m z).
  { intros q. unfold zs_all. rewrite in_flat_map. unfold ids. split.
    - intros (m & H1 & H2). apply in_map_iff in H2. destruct H2 as (z & <- & H2). apply in_seq in H1, H2. exists m, z. repeat split; lia.
    - intros (m & z & H1 & H2 & ->). exists m. split; [apply in_seq; lia|]. apply in_map_iff. exists z. split; [reflexivity|apply in_seq; lia]. }
  destruct (zs_all s) as [|x t] eqn:E.
  - exfalso. assert (In (zs_sig s 0 0) []) by (apply Hin; exists 0, 0; auto). contradiction.
  - eexists. split; [reflexivity|]. split; [apply Hin, fold_min_in|]. intros m z H1 H2. destruct (fold_min t x) as [F1 F2].
    assert (In (zs_sig s m z) (x :: t)) by (apply Hin; eauto). destruct H as [<-|H]; auto.
Qed.
Section ZFine.
  Variable s : zstored.
  Hypothesis Sm : StronglySorted Qlt (zs_mag s). Hypothesis Sz : StronglySorted Qlt (zs_z s).
  Variables (mag z : Q) (km kz : nat) (tm tz : Q).
  Hypothesis Lm : lin_ext (zs_mag s) mag km tm. Hypothesis Lz : lin_ext (zs_z s) z kz tz.
  Let along_m fl i := Qmax2 (mix tm (zs_sig s km i) (zs_sig s (S km) i)) fl.
  Lemma zfine_mag_eq fl i : exists y, zfine_mag s fl mag i = Ok y /\ (y == along_m fl i)%Q.
  Proof.
    pose proof (lin_ext_lt _ _ _ _ Lm). unfold zfine_mag.
    destruct (interpol_lin (map (fun m => zs_sig s m i) (ids (zs_mag s))) (zs_mag s) mag km tm (zs_sig s km i) (zs_sig s (S km) i)) as (y & E & Ey); try assumption.
    - rewrite map_length. apply ids_len.
    - rewrite nth_error_map, ids_nth by lia. reflexivity.
    - rewrite nth_error_map, ids_nth by lia. reflexivity.
    - rewrite E. cbn [bind]. eexists. split; [reflexivity|]. unfold along_m. apply Qmax2_eq; [exact Ey|reflexivity].
  Qed.
  Lemma zfine_eq : exists fl y, zfloor s = Ok fl /\ zfine s mag z = Ok y /\ (y == Qmax2 (mix tz (along_m fl kz) (along_m fl (S kz))) fl)%Q.
  Proof.
    pose proof (lin_ext_lt _ _ _ _ Lm). pose proof (lin_ext_lt _ _ _ _ Lz).
    destruct (zfloor_spec s) as (fl & Ef & _); [lia|lia|]. unfold zfine. rewrite Ef. cbn [bind].
    destruct (all_ok_spec (fun i => zfine_mag s fl mag i) (fun i y => (y == along_m fl i)%Q) (ids (zs_z s))) as (fp & E & Hl & Hv); [intros; apply zfine_mag_eq|].
    rewrite E. cbn [bind]. destruct (Hv kz kz) as (u & Eu & Hu); [apply ids_nth; lia|]. destruct (Hv (S kz) (S kz)) as (v & Ev & Hv'); [apply ids_nth; lia|].
    destruct (interpol_lin fp (zs_z s) z kz tz u v) as (y & E' & Ey); try assumption; [rewrite Hl; apply ids_len|].
    rewrite E'. cbn [bind]. eexists fl, _. split; [reflexivity|]. split; [reflexivity|]. apply Qmax2_eq; [|reflexivity]. rewrite Ey. apply mix_eq; [reflexivity|exact Hu|exact Hv'].
  Qed.
End ZFine.
