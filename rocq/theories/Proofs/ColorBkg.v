From Coq Require Import QArith Qround Sorting.Sorted.
From Verif.Base Require Import Py PyLemmas.
From Verif.Model Require Import Util BkgTable Maskgals RedCal ColorBkg.
From Verif.Spec Require Import Util BkgTable RedCal ColorBkg.
From Verif.Proofs Require Import Util BkgTable RedCal.
From Coq Require Import Lqa Lia List. Import ListNotations.
Local Open Scope Q_scope.

Ltac qcases := repeat match goal with |- context [Qle_bool ?x ?y] =>
  lazymatch x with context [Qle_bool] => fail | _ => lazymatch y with context [Qle_bool] => fail | _ => idtac end end;
  let E := fresh in destruct (Qle_bool x y) eqn:E; [apply Qle_bool_iff in E|apply Qle_bool_false in E] end.
(** ** shares *)
Definition cl (l r t : Q) : Q := Qmin2 r (Qmax2 l t).
Lemma overlap_cl l r a b : l <= r -> a <= b -> Qmax2 0 (Qmin2 r b - Qmax2 l a) == cl l r b - cl l r a.
Proof.
  intros H1 H2. unfold cl, Qmax2, Qmin2.
  qcases; lra.
Qed.
Lemma share_cl lo w x k : 0 < w -> share lo w x k == (cl (x - w / 2) (x + w / 2) (lo + inject_Z (Z.of_nat (S k)) * w) - cl (x - w / 2) (x + w / 2) (lo + inject_Z (Z.of_nat k) * w)) / w.
Proof.
  intros Hw. unfold share. cbv zeta. set (K := inject_Z (Z.of_nat k)). assert (E : lo + inject_Z (Z.of_nat (S k)) * w == lo + K * w + w) by (rewrite Nat2Z.inj_succ; unfold Z.succ; rewrite inject_Z_plus; change (inject_Z 1) with 1; fold K; ring).
  apply Qmult_comp; [|reflexivity]. rewrite overlap_cl; [|assert (0 < w / 2) by (apply Qlt_shift_div_l; lra); lra|lra].
  assert (C : forall l r s t, s == t -> cl l r s == cl l r t).
  { intros l r s t Hst. unfold cl, Qmin2, Qmax2. qcases; lra. }
  rewrite (C _ _ _ _ E). reflexivity.
Qed.
Lemma seq_S_r n : seq 0 (S n) = seq 0 n ++ [n].
Proof. rewrite seq_S. reflexivity. Qed.
Lemma Qsum_app2 a b : Qsum (a ++ b) == Qsum a + Qsum b.
Proof. induction a as [|x a IH]; cbn [app Qsum]; [ring|]. rewrite IH. ring. Qed.
Lemma share_sum lo w x n : 0 < w -> lo + w / 2 <= x -> x <= lo + inject_Z (Z.of_nat n) * w - w / 2 -> Qsum (map (share lo w x) (seq 0 n)) == 1.
Proof.
  intros Hw H1 H2. set (G := fun k : nat => cl (x - w / 2) (x + w / 2) (lo + inject_Z (Z.of_nat k) * w)).
  assert (T : forall m, Qsum (map (share lo w x) (seq 0 m)) == (G m - G 0%nat) / w).
  { induction m as [|m IH]; [cbn [seq map Qsum]; field; lra|]. rewrite seq_S_r, map_app, Qsum_app2, IH. cbn [map Qsum]. rewrite share_cl by exact Hw. unfold G. field. lra. }
  rewrite T. assert (Hh : 0 < w / 2) by (apply Qlt_shift_div_l; lra). assert (W : w == w / 2 + w / 2) by field.
  assert (G1 : G n == x + w / 2).
  { unfold G, cl, Qmin2, Qmax2. qcases; lra. }
  assert (G0 : G 0%nat == x - w / 2).
  { unfold G, cl, Qmin2, Qmax2. change (inject_Z (Z.of_nat 0)) with 0. qcases; lra. }
  rewrite G1, G0. field. lra.
Qed.

(** ** pairs and files *)
Lemma pairs_In ncol i j : In (i, j) (pairs ncol) <-> (i <= j < ncol)%nat.
Proof.
  unfold pairs. rewrite in_flat_map. split.
  - intros (i' & H1 & H2). apply in_map_iff in H2. destruct H2 as (j' & E & H2). injection E as <- <-. apply in_seq in H1. apply in_seq in H2. lia.
  - intros H. exists i. split; [apply in_seq; lia|]. apply in_map_iff. exists j. split; [reflexivity|]. apply in_seq. lia.
Qed.
Lemma pairs_NoDup ncol : NoDup (pairs ncol).
Proof.
  unfold pairs. assert (G : forall l, NoDup l -> NoDup (flat_map (fun i => map (fun j => (i, j)) (seq i (ncol - i))) l)); [|apply G, seq_NoDup].
  induction l as [|i l IH]; intros N; cbn [flat_map]; [constructor|]. inversion N as [|? ? N1 N2]; subst.
  assert (A : NoDup (map (fun j => (i, j)) (seq i (ncol - i)))) by (apply FinFun.Injective_map_NoDup; [intros a b E; congruence|apply seq_NoDup]).
  assert (D : forall x, In x (map (fun j => (i, j)) (seq i (ncol - i))) -> ~ In x (flat_map (fun i => map (fun j => (i, j)) (seq i (ncol - i))) l)).
  { intros x Hx Hy. apply in_map_iff in Hx. destruct Hx as (j & <- & _). apply in_flat_map in Hy. destruct Hy as (i' & Hi & Hy). apply in_map_iff in Hy. destruct Hy as (j' & E & _). injection E as -> _. contradiction. }
  revert A D. generalize (map (fun j => (i, j)) (seq i (ncol - i))) as a. induction a as [|x a IHa]; intros A D; cbn [app]; [apply IH, N2|].
  inversion A as [|? ? A1 A2]; subst. constructor; [rewrite in_app_iff; intros [H|H]; [contradiction|apply (D x (or_introl eq_refl)), H]|]. apply IHa; [exact A2|]. intros y Hy. apply D. right. exact Hy.
Qed.
Lemma pairs_head ncol : (0 < ncol)%nat -> exists t, pairs ncol = (0, 0)%nat :: t /\ forall x, In x t -> x <> (0, 0)%nat.
Proof.
  intros H. pose proof (pairs_NoDup ncol) as N. destruct ncol as [|n]; [lia|]. unfold pairs in *. cbn [seq flat_map Nat.sub map app] in *. eexists. split; [reflexivity|].
  inversion N as [|? ? N1 _]; subst. intros x Hx ->. contradiction.
Qed.
Lemma fold_write l : forall f, (forall x, In x l -> x <> (0, 0)%nat) -> fold_left write l (Some f) = Some (f ++ l).
Proof.
  induction l as [|[i j] l IH]; intros f H; cbn [fold_left]; [rewrite app_nil_r; reflexivity|].
  assert (E : write (Some f) (i, j) = Some (f ++ [(i, j)])).
  { unfold write. cbn [fst snd]. destruct (Nat.eqb_spec i 0) as [->|]; [|reflexivity]. destruct (Nat.eqb_spec j 0) as [->|]; [|reflexivity]. destruct (H _ (or_introl eq_refl) eq_refl). }
  rewrite E, IH by (intros x Hx; apply H; right; exact Hx). rewrite <- app_assoc. reflexivity.
Qed.

(** ** interpolating a constant *)
Lemma interpol_const v x xo c : StronglySorted Qlt x -> List.length v = List.length x -> (2 <= List.length x)%nat -> (forall y, In y v -> y == c) ->
  exists y, interpol v x xo = Ok y /\ y == c.
Proof.
  intros Hs Hl H2 Hc. destruct (interpol_seg v x xo Hs Hl H2) as (i & x0 & x1 & v0 & v1 & E0 & E1 & F0 & F1 & He & Hlt & _).
  eexists. split; [exact He|]. assert (A : v0 == c) by (apply Hc, (nth_error_In _ _ F0)). assert (B : v1 == c) by (apply Hc, (nth_error_In _ _ F1)). rewrite A, B. field. lra.
Qed.
Lemma all_ok_map {A B} (f : A -> res B) (P : A -> B -> Prop) l : (forall a, In a l -> exists b, f a = Ok b /\ P a b) -> exists r, all_ok f l = Ok r /\ Forall2 P l r.
Proof.
  induction l as [|a l IH]; intros H; cbn [all_ok]; [exists []; split; [reflexivity|constructor]|].
  destruct (H a (or_introl eq_refl)) as (b & -> & Hb). cbn [bind]. destruct IH as (r & -> & Hr); [intros; apply H; right; assumption|]. cbn [bind]. exists (b :: r). split; [reflexivity|constructor; assumption].
Qed.
Lemma forall2_len {A B} (P : A -> B -> Prop) l r : Forall2 P l r -> List.length r = List.length l.
Proof. induction 1; cbn; congruence. Qed.
Lemma forall2_r {A B} (P : A -> B -> Prop) (R : B -> Prop) l r : (forall a b, P a b -> R b) -> Forall2 P l r -> forall b, In b r -> R b.
Proof. intros H F. induction F; intros b' []; subst; eauto. Qed.
Lemma interps_const v x xs c : 0 <= c -> StronglySorted Qlt x -> List.length v = List.length x -> (2 <= List.length x)%nat -> (forall y, In y v -> y == c) ->
  exists r, interps v x xs = Ok r /\ List.length r = List.length xs /\ forall y, In y r -> y == c.
Proof.
  intros H0 Hs Hl H2 Hc. unfold interps. destruct (all_ok_map (fun xo => do y <- interpol v x xo; Ok (clip0 y)) (fun _ y => y == c) xs) as (r & E & F).
  - intros xo _. destruct (interpol_const v x xo c Hs Hl H2 Hc) as (y & -> & Hy). cbn [bind]. eexists. split; [reflexivity|]. unfold clip0, Qmax2. destruct (Qle_bool y 0) eqn:E; [apply Qle_bool_iff in E|]; lra.
  - exists r. split; [exact E|]. split; [apply (forall2_len _ _ _ F)|]. apply (forall2_r _ _ _ _ (fun _ b H => H) F).
Qed.
Lemma Qsum_all l c : (forall y, In y l -> y == c) -> Qsum l == inject_Z (Z.of_nat (List.length l)) * c.
Proof.
  induction l as [|y l IH]; intros H; cbn [Qsum List.length]; [change (inject_Z (Z.of_nat 0)) with 0; ring|]. rewrite IH by (intros; apply H; right; assumption). rewrite (H y (or_introl eq_refl)).
  rewrite Nat2Z.inj_succ. unfold Z.succ. rewrite inject_Z_plus. change (inject_Z 1) with 1. ring.
Qed.

(** ** the range *)
Lemma col_where mr lim cm :
  let w := np_where (fun n => Nat.ltb mr n) (histogram (- (2)) 5 colbinsize (map fst (filter (fun c => Qlt_bool (- (2)) (fst c) && Qlt_bool (fst c) 5 && Qlt_bool (snd c) (lim - (1 # 2))) cm))) in
  (forall k, In k w <-> (k < 351)%nat /\ rich mr lim cm k) /\ StronglySorted lt w.
Proof.
  cbv zeta. split; [|apply where_from_sorted]. intros k. set (use := filter _ cm).
  destruct (hist_spec (- (2)) 5 colbinsize (map fst use) 351) as (L & V); [reflexivity|lia|vm_compute; discriminate|reflexivity|].
  rewrite np_where_spec. assert (C : count (in_bin (- (2)) 5 colbinsize k) (map fst use) = List.length (filter (in_col_bin lim k) cm)).
  { unfold count, use. clear. induction cm as [|c cm IH]; [reflexivity|]. cbn [filter]. unfold in_col_bin at 1.
    destruct (Qlt_bool (- (2)) (fst c)) eqn:A, (Qlt_bool (fst c) 5) eqn:B, (Qlt_bool (snd c) (lim - (1 # 2))) eqn:D; cbn [andb]; rewrite ?andb_true_r, ?andb_false_r; try exact IH.
    cbn [map filter]. unfold in_bin at 1. assert (X : Qle_bool (fst c) 5 = true) by (apply Qle_bool_iff; apply Qlt_bool_iff in B; lra). rewrite X, andb_true_r. unfold colbinsize at 1 2.
    destruct (Qle_bool _ (fst c) && Qlt_bool (fst c) _); cbn [List.length]; rewrite ?andb_true_r; rewrite IH; reflexivity. }
  split.
  - intros (x & E & H). assert (Hk : (k < 351)%nat) by (rewrite <- L; apply nth_error_Some; congruence). split; [exact Hk|]. rewrite V in E by exact Hk. injection E as <-. apply Nat.ltb_lt in H. unfold rich. rewrite <- C. exact H.
  - intros (Hk & H). exists (count (in_bin (- (2)) 5 colbinsize k) (map fst use)). split; [apply V, Hk|]. apply Nat.ltb_lt. rewrite C. exact H.
Qed.
Lemma last_In {A} (l : list A) d : l <> [] -> In (last l d) l.
Proof. induction l as [|a l IH]; [congruence|]. intros _. destruct l as [|b l]; [left; reflexivity|]. right. apply IH. discriminate. Qed.
Lemma SS_last_le a t : StronglySorted lt (a :: t) -> forall k, In k (a :: t) -> (k <= last t a)%nat.
Proof.
  revert a. induction t as [|b t IH]; intros a S k Hk; [destruct Hk as [<-|[]]; cbn; lia|].
  inversion S as [|? ? S' F]; subst. assert (E : last (b :: t) a = last t b).
  { clear. revert b. induction t as [|c t IH]; intros b; [reflexivity|]. cbn [last] in *. destruct t; [reflexivity|]. apply (IH b). }
  rewrite E. destruct Hk as [<-|Hk]; [|apply IH; assumption]. inversion F as [|? ? Fb _]; subst. specialize (IH b S' b (or_introl eq_refl)). lia.
Qed.
Lemma nbins_whole lo hi w K : hi == lo + inject_Z (Z.of_nat K) * w -> 0 < w -> nbins lo hi w = Z.of_nat K.
Proof. intros H Hw. unfold nbins. rewrite (Qceiling_comp _ (inject_Z (Z.of_nat K))); [apply Qceiling_Z|]. rewrite H. field. lra. Qed.
Lemma nth_repeat_lt {A} (a d : A) n m : (m < n)%nat -> nth m (repeat a n) d = a.
Proof. revert m. induction n as [|n IH]; intros m H; [lia|]. destruct m; [reflexivity|]. cbn. apply IH. lia. Qed.
Lemma share_w lo w w' x k : w == w' -> share lo w x k == share lo w' x k.
Proof.
  intros E. unfold share. cbv zeta. apply Qmult_comp; [|rewrite E; reflexivity].
  apply Qmax2_eq; [reflexivity|]. assert (D : w / 2 == w' / 2) by (rewrite E; reflexivity).
  assert (A : Qmin2 (x + w / 2) (lo + inject_Z (Z.of_nat k) * w + w) == Qmin2 (x + w' / 2) (lo + inject_Z (Z.of_nat k) * w' + w')) by (apply Qmin2_eq; rewrite E; reflexivity).
  assert (B : Qmax2 (x - w / 2) (lo + inject_Z (Z.of_nat k) * w) == Qmax2 (x - w' / 2) (lo + inject_Z (Z.of_nat k) * w')) by (apply Qmax2_eq; rewrite E; reflexivity).
  rewrite A, B. reflexivity.
Qed.
Lemma Qsum_mul_r {A} (f : A -> Q) s l : Qsum (map (fun u => f u * s) l) == Qsum (map f l) * s.
Proof. induction l as [|x l IH]; cbn [map Qsum]; [ring|]. rewrite IH. ring. Qed.
Lemma In_firstn {A} (x : A) k l : In x (firstn k l) -> In x l.
Proof. intros H. rewrite <- (firstn_skipn k l). apply in_or_app. left. exact H. Qed.
Lemma nodup_firstn {A} (l : list A) k x : NoDup l -> nth_error l k = Some x -> ~ In x (firstn k l).
Proof.
  revert k. induction l as [|a l IH]; intros k N E; [destruct k; discriminate|]. inversion N as [|? ? N1 N2]; subst. destruct k as [|k]; [intros []|]. cbn [firstn nth_error] in *. intros [->|H]; [apply N1, (nth_error_In _ _ E)|apply (IH k N2 E H)].
Qed.
Lemma all_ok_In {A B} (f : A -> res B) l r : all_ok f l = Ok r -> forall b, In b r -> exists a, In a l /\ f a = Ok b.
Proof.
  revert r. induction l as [|a l IH]; intros r E b Hb; cbn [all_ok] in E; [injection E as <-; destruct Hb|].
  destruct (f a) as [y|] eqn:Ea; cbn [bind] in E; [|discriminate]. destruct (all_ok f l) as [r'|] eqn:Er; cbn [bind] in E; [|discriminate]. injection E as <-.
  destruct Hb as [<-|Hb]; [exists a; split; [left; reflexivity|exact Ea]|]. destruct (IH _ eq_refl b Hb) as (a' & H1 & H2). exists a'. split; [right; exact H1|exact H2].
Qed.
Lemma interps_nonneg v x xs r : interps v x xs = Ok r -> forall y, In y r -> 0 <= y.
Proof.
  intros E y Hy. destruct (all_ok_In _ _ _ E y Hy) as (a & _ & H). destruct (interpol v x a) as [z|]; cbn [bind] in H; [|discriminate]. injection H as <-.
  unfold clip0, Qmax2. destruct (Qle_bool z 0) eqn:D; [|apply Qle_bool_false in D]; lra.
Qed.
Lemma Qsum_nonneg l : (forall y, In y l -> 0 <= y) -> 0 <= Qsum l.
Proof. induction l as [|y l IH]; intros H; cbn [Qsum]; [lra|]. pose proof (H y (or_introl eq_refl)). assert (0 <= Qsum l) by (apply IH; intros; apply H; right; assumption). lra. Qed.
Lemma fine_count lo K : List.length (arange lo (lo + Qn K * (2 # 100)) (1 # 100)) = (2 * K)%nat.
Proof.
  rewrite arange_eq, map_length, seq_length. rewrite (Qceiling_comp _ (inject_Z (Z.of_nat (2 * K)))); [rewrite Qceiling_Z, Nat2Z.id; reflexivity|].
  rewrite Nat2Z.inj_mul, inject_Z_mult. change (inject_Z (Z.of_nat 2)) with 2. unfold Qn. field.
Qed.
Lemma cols_sorted lo K : StronglySorted Qlt (map (fun k => lo + Qn k * (2 # 100)) (seq 0 K)).
Proof.
  generalize 0%nat. induction K as [|K IH]; intros a; cbn [seq map]; constructor; [apply IH|]. apply Forall_forall. intros y Hy. apply in_map_iff in Hy. destruct Hy as (k & <- & Hk). apply in_seq in Hk.
  assert (Qn a < Qn k) by (unfold Qn; rewrite <- Zlt_Qlt; lia). lra.
Qed.
Lemma off_spec lo1 K1 lo2 K2 lim gs : (0 < K1)%nat -> (0 < K2)%nat -> 12 < lim ->
  let hi1 := lo1 + Qn K1 * (2 # 100) in let hi2 := lo2 + Qn K2 * (2 # 100) in let nm := Z.to_nat (Qceiling ((lim - 12) / (5 # 100))) in
  exists t, off_table lo1 hi1 lo2 hi2 lim gs = Ok t /\ List.length t = nm /\ (forall m, (m < nm)%nat -> shape (nth m t []) K2 K1) /\
    forall m k j, (m < nm)%nat -> (k < K2)%nat -> (j < K1)%nat ->
      cell3 t m k j == Qsum (map (fun g => share lo1 (2 # 100) (g3_c1 g) j * share lo2 (2 # 100) (g3_c2 g) k * share 12 ((lim - 12) / Qn nm) (g3_m g) m) (filter (in3 lo1 hi1 lo2 hi2 lim) gs))
                       / ((5 # 100) * (2 # 100) * (2 # 100)).
Proof.
  intros H1 H2 Hl hi1 hi2 nm. assert (P1 : 0 < Qn K1) by (unfold Qn; apply injZ_pos; lia). assert (P2 : 0 < Qn K2) by (unfold Qn; apply injZ_pos; lia).
  assert (Hh1 : lo1 < hi1) by (unfold hi1; lra). assert (Hh2 : lo2 < hi2) by (unfold hi2; lra).
  assert (E1 : nbins lo1 hi1 colbinsize = Z.of_nat K1) by (apply nbins_whole; [unfold hi1, colbinsize, Qn; reflexivity|reflexivity]).
  assert (E2 : nbins lo2 hi2 colbinsize = Z.of_nat K2) by (apply nbins_whole; [unfold hi2, colbinsize, Qn; reflexivity|reflexivity]).
  assert (Nm : (0 < nbins 12 lim refmagbinsize)%Z) by (apply nbins_pos; [exact Hl|reflexivity]).
  assert (Em : nbins 12 lim refmagbinsize = Z.of_nat nm) by (unfold nm; rewrite Z2Nat.id; [reflexivity|apply Z.lt_le_incl, Nm]).
  unfold off_table. cbv zeta. rewrite E1, E2, Em. rewrite Em in Nm. clear Em E1 E2. rewrite !Nat2Z.id. set (sel := filter _ gs). clearbody nm.
  set (N := [Z.of_nat K1; Z.of_nat K2; Z.of_nat nm]).
  set (pos := fun g => [(g3_c1 g - lo1) * inject_Z (Z.of_nat K1) / (hi1 - lo1); (g3_c2 g - lo2) * inject_Z (Z.of_nat K2) / (hi2 - lo2); (g3_m g - 12) * inject_Z (Z.of_nat nm) / (lim - 12)]).
  change (map (fun g => mkSa [(g3_c1 g - lo1) * inject_Z (Z.of_nat K1) / (hi1 - lo1); (g3_c2 g - lo2) * inject_Z (Z.of_nat K2) / (hi2 - lo2); (g3_m g - 12) * inject_Z (Z.of_nat nm) / (lim - 12)] 1) sel) with (map (fun g => mkSa (pos g) 1) sel).
  set (ss := map (fun g => mkSa (pos g) 1) sel).
  assert (Hin : forall s, In s ss -> inside N (sa_pos s)).
  { intros s Hs. apply in_map_iff in Hs. destruct Hs as (g & <- & Hs). apply filter_In in Hs. destruct Hs as [_ Hs]. unfold in3 in Hs. rewrite !andb_true_iff, !Qle_bool_iff, !Qlt_bool_iff in Hs. destruct Hs as (((((A & B) & C) & D) & E) & F).
    cbn [sa_pos]. unfold pos, N. constructor; [apply pos_inside; [assumption|lia|assumption|assumption]|]. constructor; [apply pos_inside; [assumption|lia|assumption|assumption]|]. constructor; [apply pos_inside; [assumption|lia|assumption|assumption]|constructor]. }
  destruct (cic_field true N sa_val ss Hin) as (f & E & Hlen & Hv). assert (Ec : cic true false N ss = Ok f) by (unfold cic; rewrite E; reflexivity).
  rewrite Ec. cbn [bind]. eexists. split; [reflexivity|]. split; [rewrite map_length, seq_length; reflexivity|]. split.
  - intros m Hm. rewrite nth_map_seq by exact Hm. split; [rewrite map_length, seq_length; reflexivity|]. intros k Hk. rewrite nth_map_seq by exact Hk. rewrite map_length, seq_length. reflexivity.
  - intros m k j Hm Hk Hj. unfold cell3. rewrite nth_map_seq by exact Hm. rewrite nth_map_seq by exact Hk. rewrite nth_map_seq by exact Hj.
    assert (Hc : cell_of N [Z.of_nat j; Z.of_nat k; Z.of_nat m]) by (repeat constructor; lia). pose proof (flat_range _ _ Hc) as Hr.
    assert (Hi : (j + K1 * (k + K2 * m))%nat = Z.to_nat (flat N [Z.of_nat j; Z.of_nat k; Z.of_nat m])) by (unfold N; cbn [flat]; nia).
    apply Qmult_comp; [|reflexivity]. rewrite Hi, Hv by lia. unfold ss. rewrite map_map. apply Qsum_map_ext. intros g Hg. cbn [sa_val sa_pos]. rewrite Z2Nat.id by lia.
    rewrite hits_corners; [|apply (Hin (mkSa (pos g) 1)); apply in_map_iff; eauto|exact Hc].
    unfold pos, N. cbn [weight weight1].
    assert (W1 : (hi1 - lo1) / inject_Z (Z.of_nat K1) == 2 # 100) by (unfold hi1, Qn in *; field; lra).
    assert (W2 : (hi2 - lo2) / inject_Z (Z.of_nat K2) == 2 # 100) by (unfold hi2, Qn in *; field; lra).
    assert (Pm : 0 < inject_Z (Z.of_nat nm)) by (apply injZ_pos; lia).
    rewrite (share_overlap lo1 _ (g3_c1 g) ((g3_c1 g - lo1) * inject_Z (Z.of_nat K1) / (hi1 - lo1)) j); [|reflexivity|rewrite (pos_x lo1 hi1 (Z.of_nat K1) (g3_c1 g)) at 1; [rewrite W1; reflexivity|assumption|lia]].
    rewrite (share_overlap lo2 _ (g3_c2 g) ((g3_c2 g - lo2) * inject_Z (Z.of_nat K2) / (hi2 - lo2)) k); [|reflexivity|rewrite (pos_x lo2 hi2 (Z.of_nat K2) (g3_c2 g)) at 1; [rewrite W2; reflexivity|assumption|lia]].
    rewrite (share_overlap 12 _ (g3_m g) ((g3_m g - 12) * inject_Z (Z.of_nat nm) / (lim - 12)) m); [|unfold Qn; apply Qlt_shift_div_l; [exact Pm|lra]|unfold Qn; apply pos_x; [assumption|lia]].
    ring.
Qed.
