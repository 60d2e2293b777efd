(** Proofs about cluster centering. *)
From Coq Require Import QArith Qround Qabs Lqa Permutation.
From Verif.Base Require Import Py PyLemmas Sort.
From Verif.Model Require Import Centering.
Local Open Scope nat_scope.

Lemma Qmin2_spec a b : (Qmin2 a b <= a)%Q /\ (Qmin2 a b <= b)%Q /\ (Qmin2 a b = a \/ Qmin2 a b = b).
Proof.
  unfold Qmin2. destruct (Qle_bool a b) eqn:E.
  - apply Qle_bool_iff in E. repeat split; auto; lra.
  - apply Qle_bool_false in E. repeat split; auto; lra.
Qed.
Lemma Qeqb_false a b : Qeq_bool a b = false -> ~ (a == b)%Q.
Proof. intros H C. apply Qeq_bool_iff in C. congruence. Qed.

(** ** argmin *)
Lemma argmin_ok l : l <> [] -> exists k x, argmin l = Ok k /\ nth_error l k = Some x /\
  (forall j y, nth_error l j = Some y -> (x <= y)%Q) /\ (forall j y, j < k -> nth_error l j = Some y -> (x < y)%Q).
Proof.
  unfold argmin. induction l as [|a l IH]; [congruence|]. intros _. cbn [argbest].
  destruct l as [|b l'].
  - exists 0, a. cbn. repeat split; auto; intros [|j] y; cbn; intros; try lia.
    + inversion H; lra. + destruct j; discriminate.
  - destruct IH as (k & x & E & Hx & Hm & Hf); [congruence|]. rewrite E, Hx.
    destruct (Qlt_bool x a) eqn:L.
    + apply Qlt_bool_iff in L. exists (S k), x. repeat split; auto.
      * intros [|j] y Hy; cbn in Hy; [inversion Hy; subst; lra|apply Hm in Hy; exact Hy].
      * intros [|j] y Hj Hy; cbn in Hy; [inversion Hy; subst; lra|apply (Hf j); [lia|exact Hy]].
    + apply Qlt_bool_false in L. exists 0, a. repeat split; auto; [|intros; lia].
      intros [|j] y Hy; cbn in Hy; [inversion Hy; subst; lra|]. apply Hm in Hy. lra.
Qed.
Lemma argmin_nil : argmin [] = Err ValueError.
Proof. reflexivity. Qed.

(** ** BCG *)
Lemma bcg_total uz rlam z l : exists o, bcg_find uz rlam z l = Ok (o, bcg_zspec uz l) /\
  match o with
  | None => forall i n, nth_error (bcg_zspec uz l) i = Some n -> bcg_use rlam z n = false
  | Some i => exists n, nth_error (bcg_zspec uz l) i = Some n /\ bcg_use rlam z n = true /\
                forall j m, nth_error (bcg_zspec uz l) j = Some m -> bcg_use rlam z m = true -> (b_mag n <= b_mag m)%Q
  end.
Proof.
  unfold bcg_find. generalize (bcg_zspec uz l). intros l'.
  pose proof (fun j => np_where_spec (bcg_use rlam z) l' j) as W.
  destruct (np_where (bcg_use rlam z) l') as [|u0 us].
  - exists None. split; [reflexivity|]. intros i n Hn. destruct (bcg_use rlam z n) eqn:B; [|reflexivity]. exfalso.
    assert (In i (@nil nat)) by (apply W; eauto). contradiction.
  - set (use := u0 :: us) in *.
    destruct (np_take_total (map b_mag l') use) as [sel Hsel].
    { intros i Hi. apply W in Hi. destruct Hi as [x [Hx _]]. rewrite map_length. apply nth_error_Some. congruence. }
    rewrite Hsel. cbn [bind].
    pose proof (np_take_len _ _ _ Hsel) as Hl.
    destruct (argmin_ok sel) as (k & x & E & Hx & Hm & _); [intros ->; discriminate|].
    rewrite E. cbn [bind]. destruct (np_take_nth_inv _ _ _ _ _ Hsel Hx) as [i [Hi Hix]]. rewrite Hi.
    exists (Some i). split; [reflexivity|].
    assert (In i use) as Hin by (apply nth_error_In with k; exact Hi). apply W in Hin. destruct Hin as [n [Hn Hb]].
    exists n. repeat split; auto. intros j m Hj Hjb.
    assert (In j use) as Hjn by (apply W; eauto). apply In_nth_error in Hjn. destruct Hjn as [kj Hkj].
    destruct (np_take_nth _ _ _ _ _ Hsel Hkj) as [y [Hy Hyk]]. specialize (Hm _ _ Hyk).
    rewrite (map_nth_error b_mag _ _ Hj) in Hy. rewrite (map_nth_error b_mag _ _ Hn) in Hix.
    injection Hy as <-. injection Hix as <-. exact Hm.
Qed.

(** ** random satellite *)
Lemma int_trunc_nonneg x : (0 <= x)%Q -> int_trunc x = Qfloor x.
Proof. intros H. unfold int_trunc. destruct (Qlt_bool x 0) eqn:E; [apply Qlt_bool_iff in E; lra|reflexivity]. Qed.
Lemma Qsum_perm l l' : Permutation l l' -> (Qsum l == Qsum l')%Q.
Proof. induction 1; cbn; try lra. Qed.
Lemma np_take_map_nth {A} (l : list A) idx r d : np_take l idx = Ok r -> r = map (fun i => nth i l d) idx.
Proof.
  revert r; induction idx as [|i idx IH]; intros r; cbn; [intros [= <-]; reflexivity|].
  destruct (nth_error l i) eqn:E; [|discriminate]. destruct (np_take l idx); cbn; [|discriminate].
  intros [= <-]. f_equal; [symmetry; apply nth_error_nth; exact E|]. apply IH. reflexivity.
Qed.
Lemma map_nth_seq {A} (l : list A) d : map (fun i => nth i l d) (seq 0 (List.length l)) = l.
Proof.
  induction l as [|x l IH]; [reflexivity|]. cbn [List.length seq map nth]. f_equal.
  rewrite <- seq_shift, map_map. exact IH.
Qed.
Lemma Qsum_div l s : (Qsum (map (fun p => p / s) l) == Qsum l / s)%Q.
Proof. induction l as [|x l IH]; cbn [map Qsum]; [unfold Qdiv; ring|]. rewrite IH. unfold Qdiv. ring. Qed.
Lemma Qsum_pos_In l : (forall x, In x l -> 0 <= x)%Q -> (0 < Qsum l)%Q -> exists x, In x l /\ (0 < x)%Q.
Proof.
  induction l as [|x l IH]; cbn; intros H Hs; [lra|].
  destruct (Qlt_le_dec 0 x) as [Hx|Hx]; [exists x; auto|].
  destruct IH as [y [H1 H2]]; [intros; apply H; auto|lra|]. exists y. auto.
Qed.
Lemma where_first {A} (p : A -> bool) l i t : np_where p l = i :: t ->
  exists x, nth_error l i = Some x /\ p x = true /\ forall j y, j < i -> nth_error l j = Some y -> p y = false.
Proof.
  intros H. pose proof (where_from_sorted p l 0) as Hs. change (where_from p 0 l) with (np_where p l) in Hs. rewrite H in Hs.
  assert (Hi : In i (np_where p l)) by (rewrite H; left; reflexivity).
  apply np_where_spec in Hi. destruct Hi as [x [Hx Hp]]. exists x. repeat split; auto.
  intros j y Hj Hy. destruct (p y) eqn:E; [|reflexivity]. exfalso.
  assert (Hin : In j (np_where p l)) by (apply np_where_spec; eauto). rewrite H in Hin. destruct Hin as [->|Hin]; [lia|].
  inversion Hs as [|? ? _ Hf]; subst. rewrite Forall_forall in Hf. apply Hf in Hin. lia.
Qed.

Lemma sat_ok asort pmem u : argsort_spec asort -> (forall p, In p pmem -> 0 <= p)%Q -> (0 < Qsum pmem)%Q ->
  (0 <= u)%Q -> (u < 1)%Q -> exists i p, sat_find asort pmem u = Ok i /\ nth_error pmem i = Some p /\ (0 < p)%Q.
Proof.
  intros HA Hnn Hpos Hu0 Hu1. unfold sat_find. set (st := desc asort pmem).
  destruct (np_take_total pmem st) as [pdf Hpdf]; [intros i; apply desc_In, HA|]. rewrite Hpdf. cbn [bind].
  pose proof (np_take_len _ _ _ Hpdf) as Hlen. pose proof (desc_length asort pmem HA) as Hdl. fold st in Hdl.
  assert (Hperm : Permutation pdf pmem).
  { rewrite (np_take_map_nth _ _ _ 0%Q Hpdf). transitivity (map (fun i => nth i pmem 0%Q) (seq 0 (List.length pmem))); [apply Permutation_map, desc_perm, HA | rewrite map_nth_seq; reflexivity]. }
  pose proof (Qsum_perm _ _ Hperm) as Hsum. set (s := Qsum pdf) in *.
  assert (Hs : (0 < s)%Q) by lra.
  destruct (Qeq_bool s 0) eqn:E0; [apply Qeq_bool_iff in E0; lra|].
  assert (Hnnp : forall p, In p pdf -> (0 <= p)%Q) by (intros p Hp; apply Hnn, (Permutation_in p Hperm Hp)).
  set (n := inject_Z (Z.of_nat (List.length st))).
  assert (Hn : 0 < List.length st).
  { rewrite <- Hlen. destruct pdf; [unfold s in Hs; cbn in Hs; lra|cbn; lia]. }
  assert (Hnq : (0 < n)%Q). { unfold n. change 0%Q with (inject_Z 0). rewrite <- Zlt_Qlt. lia. }
  set (q := map (fun p => (p / s)%Q) pdf). set (cdfi := map (fun c => int_trunc (c * n)) (cumsum q)).
  set (rand := int_trunc (u * n)).
  assert (Hql : List.length q = List.length st) by (unfold q; rewrite map_length; exact Hlen).
  assert (Hqn : forall i, i < List.length st -> exists c, nth_error (cumsum q) i = Some c /\ (c == Qsum (firstn (S i) pdf) / s)%Q).
  { intros i Hi. destruct (cumsum_from_nth 0 q i) as [y [H1 H2]]; [lia|]. exists y. split; [exact H1|]. rewrite H2.
    unfold q. rewrite firstn_map, Qsum_div. lra. }
  assert (Hcl : List.length cdfi = List.length st) by (unfold cdfi, cumsum; rewrite map_length, cumsum_from_length; exact Hql).
  (* the last entry is n *)
  assert (Hex : np_where (fun c => Z.leb rand c) cdfi <> []).
  { destruct (Hqn (List.length st - 1)) as [c [Hc Hcq]]; [lia|].
    assert (Hin : In (List.length st - 1) (np_where (fun c => Z.leb rand c) cdfi)).
    { apply np_where_spec. exists (int_trunc (c * n)). split; [unfold cdfi; rewrite (map_nth_error _ _ _ Hc); reflexivity|].
      replace (S (List.length st - 1)) with (List.length pdf) in Hcq by lia. rewrite firstn_all in Hcq. fold s in Hcq.
      assert (Hc1 : (c == 1)%Q). { rewrite Hcq. field. lra. }
      apply Z.leb_le. unfold rand. rewrite !int_trunc_nonneg; [| nra | nra].
      apply Qfloor_resp_le. rewrite Hc1. nra. }
    intros C. rewrite C in Hin. exact Hin. }
  destruct (np_where (fun c => Z.leb rand c) cdfi) as [|ind tl] eqn:Ew; [congruence|]. clear Hex.
  destruct (where_first _ _ _ _ Ew) as (x & Hx & Hrx & Hfirst).
  assert (Hind : ind < List.length st). { rewrite <- Hcl. apply nth_error_Some. congruence. }
  destruct (nth_error st ind) as [i|] eqn:Ei; [|apply nth_error_None in Ei; lia].
  destruct (np_take_nth _ _ _ _ _ Hpdf Ei) as [p [Hp Hpi]].
  exists i, p. repeat split; auto.
  destruct (Qlt_le_dec 0 p) as [|Hp0]; [assumption|]. exfalso.
  assert (Hpz : (p == 0)%Q). { assert (0 <= p)%Q by (apply Hnnp, nth_error_In with ind; exact Hpi). lra. }
  destruct ind as [|k].
  - (* the largest is zero: everything is *)
    destruct (Qsum_pos_In pdf Hnnp Hs) as [y [Hy Hy0]]. apply In_nth_error in Hy. destruct Hy as [m Hm].
    destruct (np_take_nth_inv _ _ _ _ _ Hpdf Hm) as [im [Him Hyi]].
    destruct m as [|m]; [assert (y = p) by congruence; subst; lra|].
    pose proof (desc_sorted asort pmem 0 (S m) i im p y HA ltac:(lia) Ei Him Hp Hyi). lra.
  - destruct (Hqn k) as [c [Hc Hcq]]; [lia|]. destruct (Hqn (S k)) as [c' [Hc' Hcq']]; [lia|].
    assert (Hf : forall (l : list Q) j y, nth_error l j = Some y -> (Qsum (firstn (S j) l) == Qsum (firstn j l) + y)%Q).
    { induction l as [|a l IH]; intros [|j] y Hy; cbn in Hy; try discriminate.
      - injection Hy as ->. cbn. lra.
      - specialize (IH _ _ Hy). cbn [firstn Qsum] in *. rewrite IH. ring. }
    specialize (Hf pdf (S k) p Hpi).
    assert (Hcc : (c == c')%Q). { rewrite Hcq, Hcq', Hf, Hpz. unfold Qdiv. ring. }
    assert (Hpos1 : (0 <= c)%Q).
    { rewrite Hcq. apply Qle_shift_div_l; [exact Hs|]. rewrite Qmult_0_l. apply Qsum_nonneg. intros y Hy. apply Hnnp.
      rewrite <- (firstn_skipn (S k) pdf). apply in_or_app. left. exact Hy. }
    unfold cdfi in Hx. rewrite (map_nth_error _ _ _ Hc') in Hx. injection Hx as <-.
    assert (Hk : nth_error cdfi k = Some (int_trunc (c * n))) by (unfold cdfi; rewrite (map_nth_error _ _ _ Hc); reflexivity).
    specialize (Hfirst k _ ltac:(lia) Hk).
    assert (He : int_trunc (c * n) = int_trunc (c' * n)).
    { rewrite !int_trunc_nonneg; [|rewrite <- Hcc; nra|nra]. rewrite Hcc. reflexivity. }
    congruence.
Qed.

(** a degenerate membership vector is an error, not a False *)
Lemma Qsum_zero l : (forall x, In x l -> x == 0)%Q -> (Qsum l == 0)%Q.
Proof. induction l as [|x l IH]; cbn; intros H; [lra|]. rewrite (H x (or_introl eq_refl)), IH; [lra|auto]. Qed.
Lemma sat_zero asort pmem u : argsort_spec asort -> (forall p, In p pmem -> p == 0)%Q -> sat_find asort pmem u = Err IndexError.
Proof.
  intros HA H. unfold sat_find. destruct (np_take_total pmem (desc asort pmem)) as [pdf Hpdf]; [intros i; apply desc_In, HA|].
  rewrite Hpdf. cbn [bind]. assert (Hz : (Qsum pdf == 0)%Q).
  { apply Qsum_zero. intros x Hx. apply (np_take_In _ _ _ _ Hpdf) in Hx. destruct Hx as [i [_ Hi]]. apply H, nth_error_In with i, Hi. }
  apply Qeq_bool_iff in Hz. rewrite Hz. reflexivity.
Qed.

(** ** WcenZred: the renormalised probabilities *)
Lemma Qprod_pos l : (forall x, In x l -> 0 < x)%Q -> (0 < Qprod l)%Q.
Proof.
  induction l as [|x l IH]; intros H; cbn; [lra|]. apply Qmult_lt_0_compat; [apply H; left; reflexivity|].
  apply IH. intros; apply H; right; assumption.
Qed.
Lemma Qprod_hole (f : nat -> Q) L i : NoDup L -> In i L ->
  (Qprod (map (fun j => if Nat.eqb j i then 1 - 0 else f j) L) * f i == Qprod (map f L))%Q.
Proof.
  induction L as [|j L IH]; intros Hnd Hin; [contradiction|]. inversion Hnd as [|? ? Hn Hnd']; subst.
  cbn [map]. unfold Qprod. cbn [fold_right]. fold (Qprod (map f L)).
  destruct Hin as [->|Hin].
  - rewrite Nat.eqb_refl.
    assert (E : map (fun j => if Nat.eqb j i then (1 - 0)%Q else f j) L = map f L).
    { apply map_ext_in. intros a Ha. destruct (Nat.eqb_spec a i); [congruence|reflexivity]. }
    rewrite E. unfold Qprod. ring.
  - destruct (Nat.eqb_spec j i) as [->|]; [contradiction|]. specialize (IH Hnd' Hin). unfold Qprod in *. rewrite <- IH. ring.
Qed.
Lemma unnorm_eq ps i : i < List.length ps ->
  (unnorm ps i * (1 - nth i ps 0) == nth i ps 0 * Qprod (map (fun p => 1 - p) ps))%Q.
Proof.
  intros Hi. unfold unnorm.
  pose proof (Qprod_hole (fun j => 1 - nth j ps 0)%Q (seq 0 (List.length ps)) i (seq_NoDup _ _)) as H.
  cbv beta in H. rewrite <- Qmult_assoc, H; [|apply in_seq; lia].
  assert (E : map (fun j => (1 - nth j ps 0)%Q) (seq 0 (List.length ps)) = map (fun p => (1 - p)%Q) ps).
  { transitivity (map (fun p => (1 - p)%Q) (map (fun i => nth i ps 0%Q) (seq 0 (List.length ps)))); [rewrite map_map; reflexivity|rewrite map_nth_seq; reflexivity]. }
  rewrite E. reflexivity.
Qed.
Definition unit_open (ps : list Q) : Prop := forall p, In p ps -> (0 < p /\ p < 1)%Q.
Lemma prod_pos ps : unit_open ps -> (0 < Qprod (map (fun p => 1 - p) ps))%Q.
Proof. intros H. apply Qprod_pos. intros x Hx. apply in_map_iff in Hx. destruct Hx as [p [<- Hp]]. destruct (H p Hp). lra. Qed.
Lemma unnorm_pos ps i : unit_open ps -> i < List.length ps -> (0 < unnorm ps i)%Q.
Proof.
  intros H Hi. pose proof (unnorm_eq ps i Hi). pose proof (prod_pos ps H). destruct (H (nth i ps 0%Q) (nth_In _ _ Hi)). nra.
Qed.
Lemma unnorm_mono ps i j : unit_open ps -> i < List.length ps -> j < List.length ps ->
  (nth j ps 0 <= nth i ps 0)%Q -> (unnorm ps j <= unnorm ps i)%Q.
Proof.
  intros H Hi Hj Hle. pose proof (unnorm_eq ps i Hi) as Ei. pose proof (unnorm_eq ps j Hj) as Ej.
  pose proof (prod_pos ps H) as HT. destruct (H _ (nth_In ps 0%Q Hi)) as [A B]. destruct (H _ (nth_In ps 0%Q Hj)) as [C D].
  set (T := Qprod _) in *. set (a := nth i ps 0%Q) in *. set (b := nth j ps 0%Q) in *.
  pose proof (unnorm_pos ps j H Hj) as Uj. pose proof (unnorm_pos ps i H Hi) as Ui.
  set (ui := unnorm ps i) in *. set (uj := unnorm ps j) in *.
  destruct (Qlt_le_dec ui uj) as [Hlt|]; [|assumption]. exfalso.
  (* ui (1-a) = a T >= b T = uj (1-b) >= uj (1-a) > ui (1-a) *)
  assert (b * T <= a * T)%Q by (apply Qmult_le_compat_r; lra).
  assert (uj * (1 - a) <= uj * (1 - b))%Q by nra.
  assert (ui * (1 - a) < uj * (1 - a))%Q by nra. lra.
Qed.

Lemma Qsum_map_div {A} (f : A -> Q) s l : (Qsum (map (fun u => f u / s) l) == Qsum (map f l) / s)%Q.
Proof. induction l as [|x l IH]; cbn [map Qsum]; [unfold Qdiv; ring|]. rewrite IH. unfold Qdiv. ring. Qed.
Lemma Qsum_ge_elem l x : (forall y, In y l -> 0 <= y)%Q -> In x l -> (x <= Qsum l)%Q.
Proof.
  induction l as [|a l IH]; intros H Hx; [contradiction|]. cbn [Qsum].
  pose proof (Qsum_nonneg l (fun y Hy => H y (or_intror Hy))). pose proof (H a (or_introl eq_refl)).
  destruct Hx as [->|Hx]; [lra|]. specialize (IH (fun y Hy => H y (or_intror Hy)) Hx). lra.
Qed.

(** the normalised lists *)
Section norm.
  Variables (ps : list Q) (D : Q).
  Hypotheses (Hu : unit_open ps) (Hne : ps <> []) (HD : (Qsum (map (unnorm ps) (seq 0 (List.length ps))) <= D)%Q).
  Let un := map (unnorm ps) (seq 0 (List.length ps)).
  Lemma un_pos x : In x un -> (0 < x)%Q.
  Proof. unfold un. intros H. apply in_map_iff in H. destruct H as [i [<- Hi]]. apply in_seq in Hi. apply unnorm_pos; [exact Hu|lia]. Qed.
  Lemma un_sum_pos : (0 < Qsum un)%Q.
  Proof.
    assert (Hi : 0 < List.length ps) by (destruct ps; [congruence|cbn; lia]).
    assert (In (unnorm ps 0) un) by (unfold un; apply in_map, in_seq; lia).
    pose proof (Qsum_ge_elem un _ (fun y Hy => Qlt_le_weak _ _ (un_pos y Hy)) H). pose proof (un_pos _ H). lra.
  Qed.
  Lemma norm_bounds x : In x (map (fun u => u / D)%Q un) -> (0 <= x /\ x <= 1)%Q.
  Proof.
    intros H. apply in_map_iff in H. destruct H as [u [<- Hu']]. pose proof un_sum_pos. pose proof HD as HD'. fold un in HD'. pose proof (un_pos u Hu').
    pose proof (Qsum_ge_elem un u (fun y Hy => Qlt_le_weak _ _ (un_pos y Hy)) Hu').
    split; [apply Qle_shift_div_l; lra|apply Qle_shift_div_r; lra].
  Qed.
  Lemma norm_sum : (Qsum (map (fun u => u / D)%Q un) * D == Qsum un)%Q.
  Proof. rewrite (Qsum_map_div (fun u => u)), map_id. pose proof un_sum_pos. pose proof HD as HD'. fold un in HD'. field. lra. Qed.
  Lemma norm_sorted i j x y : (forall i j p q, i < j -> nth_error ps i = Some p -> nth_error ps j = Some q -> (q <= p)%Q) ->
    i < j -> nth_error (map (fun u => u / D)%Q un) i = Some x ->
    nth_error (map (fun u => u / D)%Q un) j = Some y -> (y <= x)%Q.
  Proof.
    intros Hs Hij Hx Hy.
    assert (G : forall k z, nth_error (map (fun u => u / D)%Q un) k = Some z ->
      k < List.length ps /\ z = (unnorm ps k / D)%Q).
    { intros k z Hz. assert (Hk : k < List.length ps).
      { assert (L : k < List.length (map (fun u => u / D)%Q un)) by (apply nth_error_Some; rewrite Hz; discriminate).
        unfold un in L. rewrite !map_length, seq_length in L. exact L. }
      split; [exact Hk|]. assert (nth_error un k = Some (unnorm ps k)).
      { unfold un. apply map_nth_error. rewrite nth_error_nth' with (d := 0) by (rewrite seq_length; exact Hk). rewrite seq_nth by exact Hk. reflexivity. }
      rewrite (map_nth_error _ _ _ H) in Hz. congruence. }
    destruct (G _ _ Hx) as [Li ->]. destruct (G _ _ Hy) as [Lj ->].
    assert (M : (unnorm ps j <= unnorm ps i)%Q).
    { apply unnorm_mono; auto. apply (Hs i j); auto; apply nth_error_nth'; assumption. }
    pose proof un_sum_pos. pose proof HD as HD'. fold un in HD'. unfold Qdiv. apply Qmult_le_compat_r; [exact M|]. apply Qlt_le_weak, Qinv_lt_0_compat. lra.
  Qed.
End norm.

(** ** WcenZred: the whole function *)
Lemma pcen_le lam sc n : (pcen_basic lam sc n < 1)%Q.
Proof.
  unfold pcen_basic. cbv zeta. destruct (Qeq_bool _ 0).
  - destruct (Qeq_bool _ 0); reflexivity.
  - match goal with |- (Qmin2 ?a ?b < 1)%Q => pose proof (Qmin2_spec a b) as [_ [H _]] end.
    eapply Qle_lt_trans; [exact H|]. reflexivity.
Qed.
Lemma firstn_nth_error {A} (l : list A) n k x : nth_error (firstn n l) k = Some x -> nth_error l k = Some x /\ k < n.
Proof.
  revert l k; induction n as [|n IH]; intros [|a l] [|k]; cbn; try discriminate.
  - intros ->. split; [reflexivity|lia].
  - intros H. apply IH in H. destruct H. split; [assumption|lia].
Qed.
Lemma nth_error_firstn_lt {A} (l : list A) n k : k < n -> nth_error (firstn n l) k = nth_error l k.
Proof. revert l k; induction n as [|n IH]; intros [|a l] [|k] H; cbn; try lia; try reflexivity. apply IH. lia. Qed.

Record wpos (asort : list Q -> list nat) maxcen lam sc rlam (l : list wn) (o : wout) (ps : list Q) : Prop := {
  wp_unit : unit_open ps; wp_ne : ps <> [];
  wp_sorted : forall i j p q, i < j -> nth_error ps i = Some p -> nth_error ps j = Some q -> (q <= p)%Q;
  wp_pcen : wo_pcen o = (let un := map (unnorm ps) (seq 0 (List.length ps)) in map (fun u => u / Qsum un)%Q un);
  wp_qcen : wo_qcen o = (let un := map (unnorm ps) (seq 0 (List.length ps)) in
                         map (fun u => u / (Qprod (map (fun p => 1 - p)%Q ps) + Qsum un))%Q un);
  wp_qmiss : wo_qmiss o = 0%Q;
  wp_len : List.length (wo_index o) = List.length ps;
  wp_max : List.length ps <= maxcen;
  wp_nodup : NoDup (wo_index o);
  wp_head : nth_error (wo_index o) 0 = Some (wo_maxind o);
  wp_ngood : wo_ngood o = List.length ps;
  wp_cand : forall k i, nth_error (wo_index o) k = Some i -> exists n, nth_error l i = Some n /\
     (w_r n < rlam)%Q /\ w_cut n = true /\ nth_error ps k = Some (pcen_basic lam sc n) /\
     exists pc, nth_error (wo_pcen o) k = Some pc /\ nth_error (wo_pfg o) k = Some ((1 - pc) * fg_basic lam n)%Q /\
       nth_error (wo_psat o) k = Some ((1 - pc) * sat_basic lam n)%Q;
  wp_rest : forall j m, nth_error l j = Some m -> (w_r m < rlam)%Q -> w_cut m = true -> (0 < pcen_basic lam sc m)%Q ->
     In j (wo_index o) \/ (List.length ps = maxcen /\ forall p, In p ps -> (pcen_basic lam sc m <= p)%Q)
}.

Lemma wcen_cases asort maxcen lam sc rlam l o : argsort_spec asort -> wcen_find asort maxcen lam sc rlam l = Ok o ->
  (exists ps, wpos asort maxcen lam sc rlam l o ps) \/
  (wo_ngood o = 0 /\ wo_pcen o = [0%Q] /\ wo_qcen o = [0%Q] /\ wo_qmiss o = 1%Q /\ wo_index o = [wo_maxind o] /\
   (forall j m, nth_error l j = Some m -> (w_r m < rlam)%Q -> w_cut m = true -> (pcen_basic lam sc m <= 0)%Q) /\
   exists n, nth_error l (wo_maxind o) = Some n /\ (w_r n < rlam)%Q /\ w_cut n = true /\
     (forall j m, nth_error l j = Some m -> (w_r m < rlam)%Q -> w_cut m = true -> (w_r n <= w_r m)%Q) /\
     wo_pfg o = [((1 - 0) * fg_basic lam n)%Q] /\ wo_psat o = [((1 - 0) * sat_basic lam n)%Q]).
Proof.
  intros HA. unfold wcen_find.
  pose proof (np_where_spec (fun n => Qlt_bool (w_r n) rlam && w_cut n) l) as WU.
  pose proof (np_where_NoDup (fun n => Qlt_bool (w_r n) rlam && w_cut n) l) as NU.
  set (use := np_where (fun n => Qlt_bool (w_r n) rlam && w_cut n) l) in *.
  assert (WU' : forall i, In i use <-> exists n, nth_error l i = Some n /\ (w_r n < rlam)%Q /\ w_cut n = true).
  { intros i. rewrite WU. split; intros [n [H1 H2]]; exists n.
    - apply andb_prop in H2. destruct H2 as [H2 H3]. apply Qlt_bool_iff in H2. auto.
    - destruct H2 as [H2 H3]. split; [exact H1|]. apply Qlt_bool_iff in H2. rewrite H2, H3. reflexivity. }
  destruct (np_take l use) as [cand|] eqn:Ec; [|discriminate]. cbn [bind].
  set (pb := map (pcen_basic lam sc) cand).
  assert (PB : forall k n, nth_error cand k = Some n -> nth_error pb k = Some (pcen_basic lam sc n)).
  { intros k n Hn. unfold pb. apply map_nth_error, Hn. }
  pose proof (np_where_spec (fun p => Qlt_bool 0 p) pb) as WO.
  pose proof (np_where_NoDup (fun p => Qlt_bool 0 p) pb) as NO.
  (* from an input position to its place among the candidates *)
  assert (Hplace : forall j m, nth_error l j = Some m -> (w_r m < rlam)%Q -> w_cut m = true ->
    exists k, nth_error use k = Some j /\ nth_error cand k = Some m).
  { intros j m Hj Hr Hc. assert (Hin : In j use) by (apply WU'; eauto). apply In_nth_error in Hin. destruct Hin as [k Hk].
    destruct (np_take_nth _ _ _ _ _ Ec Hk) as [x [Hx Hxk]]. exists k. split; [exact Hk|congruence]. }
  destruct (np_where (fun p => Qlt_bool 0 p) pb) as [|o0 os] eqn:Eo.
  - (* no candidate with positive probability *)
    destruct (argmin (map w_r cand)) as [m|] eqn:Em; [|discriminate]. cbn [bind].
    destruct (np_take cand [m]) as [cg|] eqn:Ecg; [|discriminate]. cbn [bind].
    destruct (np_take use [m]) as [ix|] eqn:Eix; [|discriminate]. cbn [bind].
    cbn [np_take] in Ecg, Eix.
    destruct (nth_error cand m) as [n|] eqn:En; [|discriminate]. destruct (nth_error use m) as [i|] eqn:Ei; [|discriminate].
    cbn [bind] in Ecg, Eix. injection Ecg as <-. injection Eix as <-. intros [= <-]. right. cbn.
    destruct (np_take_nth _ _ _ _ _ Ec Ei) as [n' [Hn' Hn'k]]. assert (n' = n) by congruence. subst n'.
    assert (Hin : In i use) by (apply nth_error_In with m; exact Ei). apply WU' in Hin.
    destruct Hin as [n2 [Hn2 [Hr2 Hc2]]]. assert (n2 = n) by congruence. subst n2.
    do 5 (split; [reflexivity|]). split.
    + intros j q Hj Hr Hc. destruct (Hplace j q Hj Hr Hc) as [k [_ Hk]]. apply PB in Hk.
      destruct (Qlt_le_dec 0 (pcen_basic lam sc q)) as [Hp|]; [|assumption]. exfalso.
      apply (proj2 (WO k)). exists (pcen_basic lam sc q). split; [exact Hk|]. apply Qlt_bool_iff, Hp.
    + exists n. repeat split; auto. intros j q Hj Hr Hc. destruct (Hplace j q Hj Hr Hc) as [k [_ Hk]].
      destruct (argmin_ok (map w_r cand)) as (m' & x & Em' & Hx & Hmin & _).
      { destruct cand; [destruct m; discriminate|discriminate]. }
      assert (m' = m) by congruence. subst m'. rewrite (map_nth_error w_r _ _ En) in Hx. injection Hx as <-.
      apply (Hmin k). apply map_nth_error, Hk.
  - set (ok := o0 :: os) in *. clearbody ok.
    destruct (np_take pb ok) as [pok|] eqn:Epok; [|discriminate]. cbn [bind].
    destruct (np_take ok (desc asort pok)) as [ord|] eqn:Eord; [|discriminate]. cbn [bind].
    set (good := firstn maxcen ord).
    destruct (np_take pb good) as [ps|] eqn:Eps; [|discriminate]. cbn [bind].
    destruct (np_take cand good) as [cg|] eqn:Ecg; [|discriminate]. cbn [bind].
    destruct (np_take use good) as [ix|] eqn:Eix; [|discriminate]. cbn [bind].
    destruct ix as [|i0 ix']; [discriminate|]. set (ix := i0 :: ix') in *.
    assert (Hix0 : nth_error ix 0 = Some i0) by reflexivity. clearbody ix.
    intros [= <-]. left. exists ps.
    pose proof (np_take_len _ _ _ Eps) as Lps. pose proof (np_take_len _ _ _ Eix) as Lix. pose proof (np_take_len _ _ _ Ecg) as Lcg.
    pose proof (np_take_len _ _ _ Epok) as Lpok. pose proof (np_take_len _ _ _ Eord) as Lord.
    pose proof (desc_length asort pok HA) as Ldesc.
    (* positions of the ordering *)
    assert (Hord : forall k a, nth_error ord k = Some a -> exists d, nth_error (desc asort pok) k = Some d /\ nth_error ok d = Some a /\
        exists p, nth_error pok d = Some p /\ nth_error pb a = Some p).
    { intros k a Hk. destruct (np_take_nth_inv _ _ _ _ _ Eord Hk) as [d [Hd Hda]]. exists d. split; [exact Hd|]. split; [exact Hda|].
      destruct (np_take_nth _ _ _ _ _ Epok Hda) as [p [H1 H2]]. exists p. auto. }
    assert (Hps : forall k p, nth_error ps k = Some p -> exists a d, nth_error good k = Some a /\ nth_error ord k = Some a /\ k < maxcen /\
        nth_error (desc asort pok) k = Some d /\ nth_error ok d = Some a /\ nth_error pok d = Some p /\ nth_error pb a = Some p).
    { intros k p Hk. destruct (np_take_nth_inv _ _ _ _ _ Eps Hk) as [a [Ha Hpa]].
      destruct (firstn_nth_error _ _ _ _ Ha) as [Ha' Hlt]. destruct (Hord k a Ha') as [d [Hd [Hda [p' [H1 H2]]]]].
      exists a, d. repeat split; auto. congruence. }
    assert (NDord : NoDup ord).
    { apply NoDup_nth_error. intros i j Hi Hij.
      destruct (nth_error ord i) as [a|] eqn:Ea; [|apply nth_error_None in Ea; lia].
      destruct (Hord _ _ Ea) as [d [Hd [Hda _]]]. symmetry in Hij. destruct (Hord _ _ Hij) as [d' [Hd' [Hda' _]]].
      assert (d = d').
      { apply (proj1 (NoDup_nth_error ok) NO); [apply nth_error_Some; congruence|congruence]. }
      subst d'. apply (proj1 (NoDup_nth_error _) (desc_NoDup asort pok HA)); [apply nth_error_Some; congruence|congruence]. }
    constructor; cbn [wo_pcen wo_qcen wo_qmiss wo_index wo_maxind wo_ngood wo_pfg wo_psat].
    + intros p Hp. apply In_nth_error in Hp. destruct Hp as [k Hk]. destruct (Hps k p Hk) as (a & d & _ & _ & _ & _ & Hda & _ & Hpa).
      assert (Hin : In a ok) by (apply nth_error_In with d; exact Hda). apply WO in Hin. destruct Hin as [p' [H1 H2]].
      apply Qlt_bool_iff in H2. assert (p' = p) by congruence. subst. split; [exact H2|].
      unfold pb in Hpa. apply nth_error_In, in_map_iff in Hpa. destruct Hpa as [n [<- _]]. apply pcen_le.
    + intros ->. destruct ix; [discriminate|]. cbn in *. lia.
    + intros i j p q Hij Hp Hq. destruct (Hps _ _ Hp) as (a & d & _ & _ & _ & Hd & _ & Hpd & _).
      destruct (Hps _ _ Hq) as (a' & d' & _ & _ & _ & Hd' & _ & Hpd' & _).
      apply (desc_sorted asort pok i j d d' p q HA Hij Hd Hd' Hpd Hpd').
    + reflexivity.
    + reflexivity.
    + reflexivity.
    + lia.
    + rewrite Lps. unfold good. apply firstn_le_length.
    + apply NoDup_nth_error. intros i j Hi Hij.
      destruct (nth_error ix i) as [x|] eqn:Ex; [|apply nth_error_None in Ex; lia].
      destruct (np_take_nth_inv _ _ _ _ _ Eix Ex) as [a [Ha Hax]]. symmetry in Hij.
      destruct (np_take_nth_inv _ _ _ _ _ Eix Hij) as [b [Hb Hbx]].
      assert (a = b) by (apply (proj1 (NoDup_nth_error use) NU); [apply nth_error_Some; congruence|congruence]). subst b.
      apply firstn_nth_error in Ha. apply firstn_nth_error in Hb. destruct Ha as [Ha _], Hb as [Hb _].
      apply (proj1 (NoDup_nth_error ord) NDord); [apply nth_error_Some; congruence|congruence].
    + exact Hix0.
    + symmetry. exact Lps.
    + intros k i Hk. destruct (np_take_nth_inv _ _ _ _ _ Eix Hk) as [a [Ha Hai]].
      destruct (np_take_nth _ _ _ _ _ Ec Hai) as [n [Hn Hna]]. exists n. split; [exact Hn|].
      assert (Hin : In i use) by (apply nth_error_In with a; exact Hai). apply WU' in Hin. destruct Hin as [n' [Hn' [Hr Hc]]].
      assert (n' = n) by congruence. subst n'. split; [exact Hr|]. split; [exact Hc|].
      destruct (np_take_nth _ _ _ _ _ Eps Ha) as [p [Hp Hpk]]. rewrite (PB _ _ Hna) in Hp. injection Hp as <-.
      split; [exact Hpk|].
      destruct (np_take_nth _ _ _ _ _ Ecg Ha) as [n2 [Hn2 Hn2k]]. assert (n2 = n) by congruence. subst n2.
      set (un := map (unnorm ps) (seq 0 (List.length ps))).
      assert (Hkl : k < List.length ps) by (apply nth_error_Some; congruence).
      destruct (nth_error (map (fun u => u / Qsum un)%Q un) k) as [pc|] eqn:Epc.
      2:{ apply nth_error_None in Epc. rewrite map_length in Epc. unfold un in Epc. rewrite map_length, seq_length in Epc. lia. }
      exists pc. split; [reflexivity|].
      assert (Hcomb : forall (A B : Type) (la : list A) (lb : list B) k x y, nth_error la k = Some x -> nth_error lb k = Some y ->
         nth_error (combine la lb) k = Some (x, y)).
      { intros A B. induction la as [|x0 la IHl]; intros [|y0 lb] [|k0] x y; cbn; try discriminate; [congruence|apply IHl]. }
      pose proof (Hcomb _ _ _ _ _ _ _ Epc Hn2k) as Hcm.
      split; rewrite (map_nth_error _ _ _ Hcm); reflexivity.
    + intros j m Hj Hr Hc Hp. destruct (Hplace j m Hj Hr Hc) as [a [Ha Ham]]. pose proof (PB _ _ Ham) as Hpa.
      assert (Hin : In a ok) by (apply WO; exists (pcen_basic lam sc m); split; [exact Hpa|apply Qlt_bool_iff, Hp]).
      apply In_nth_error in Hin. destruct Hin as [d Hd].
      assert (Hdl : d < List.length pok). { rewrite Lpok. apply nth_error_Some. congruence. }
      assert (Hind : In d (desc asort pok)) by (apply desc_In; assumption). apply In_nth_error in Hind. destruct Hind as [k Hk].
      destruct (np_take_nth _ _ _ _ _ Eord Hk) as [a' [Ha' Hka]]. assert (a' = a) by congruence. subst a'.
      destruct (np_take_nth _ _ _ _ _ Epok Hd) as [pm [Hpm Hpmd]]. assert (pm = pcen_basic lam sc m) by congruence. subst pm.
      destruct (lt_dec k maxcen) as [Hkm|Hkm].
      * left. assert (Hg : nth_error good k = Some a) by (unfold good; rewrite nth_error_firstn_lt; assumption).
        destruct (np_take_nth _ _ _ _ _ Eix Hg) as [j' [H1 H2]]. apply nth_error_In with k. congruence.
      * right. assert (Hko : k < List.length ord) by (apply nth_error_Some; congruence). split.
        { rewrite Lps. unfold good. rewrite firstn_length. lia. }
        intros p Hp'. apply In_nth_error in Hp'. destruct Hp' as [k' Hk'].
        destruct (Hps _ _ Hk') as (b & d' & _ & _ & Hlt & Hd' & _ & Hpd & _).
        apply (desc_sorted asort pok k' k d' d p (pcen_basic lam sc m) HA ltac:(lia) Hd' Hk Hpd Hpmd).
Qed.

Lemma wcen_no_candidate asort maxcen lam sc rlam l : (forall n, In n l -> (rlam <= w_r n)%Q \/ w_cut n = false) ->
  wcen_find asort maxcen lam sc rlam l = Err ValueError.
Proof.
  intros H. unfold wcen_find. assert (E : np_where (fun n => Qlt_bool (w_r n) rlam && w_cut n) l = []).
  { destruct (np_where (fun n => Qlt_bool (w_r n) rlam && w_cut n) l) as [|i t] eqn:E; [reflexivity|]. exfalso.
    assert (Hin : In i (np_where (fun n => Qlt_bool (w_r n) rlam && w_cut n) l)) by (rewrite E; left; reflexivity).
    apply np_where_spec in Hin. destruct Hin as [n [Hn Hb]]. apply andb_prop in Hb. destruct Hb as [H1 H2].
    apply Qlt_bool_iff in H1. destruct (H n (nth_error_In _ _ Hn)); [lra|congruence]. }
  rewrite E. reflexivity.
Qed.

(** ** the redshifts seen by the BCG rule *)
From Verif.Spec Require Import Centering.
Lemma bcg_zspec_nth uz l i : nth_error (bcg_zspec uz l) i =
  option_map (fun n => if uz && Qlt_bool 0 (b_zspec n)
     then mkBN (b_r n) (b_pmem n) (b_zspec n) (b_zspece n) (b_zspec n) (b_zspece n) (b_mag n) else n) (nth_error l i).
Proof.
  unfold bcg_zspec. destruct uz; [apply nth_error_map|]. cbn. destruct (nth_error l i); reflexivity.
Qed.
Lemma bcg_use_iff uz rlam z n :
  bcg_use rlam z (if uz && Qlt_bool 0 (b_zspec n)
     then mkBN (b_r n) (b_pmem n) (b_zspec n) (b_zspece n) (b_zspec n) (b_zspece n) (b_mag n) else n) = true
  <-> bcg_eligible uz rlam z n.
Proof.
  unfold bcg_eligible, judged_z, judged_ze. destruct (uz && Qlt_bool 0 (b_zspec n)); unfold bcg_use;
  cbn [b_r b_pmem b_zred b_zrede]; rewrite andb_true_iff, orb_true_iff, !Qlt_bool_iff; reflexivity.
Qed.
Lemma bcg_main uz rlam z l : exists o l', bcg_find uz rlam z l = Ok (o, l') /\
  match o with
  | None => forall i n, nth_error l i = Some n -> ~ bcg_eligible uz rlam z n
  | Some i => exists n, nth_error l i = Some n /\ bcg_eligible uz rlam z n /\
                forall j m, nth_error l j = Some m -> bcg_eligible uz rlam z m -> (b_mag n <= b_mag m)%Q
  end.
Proof.
  destruct (bcg_total uz rlam z l) as [o [E H]]. exists o, (bcg_zspec uz l). split; [exact E|].
  assert (Hm : forall n, b_mag (if uz && Qlt_bool 0 (b_zspec n)
     then mkBN (b_r n) (b_pmem n) (b_zspec n) (b_zspece n) (b_zspec n) (b_zspece n) (b_mag n) else n) = b_mag n)
    by (intros n; destruct (uz && _); reflexivity).
  destruct o as [i|].
  - destruct H as [n' [Hn [Hu Hmin]]]. rewrite bcg_zspec_nth in Hn. destruct (nth_error l i) as [n|]; [|discriminate].
    injection Hn as <-. exists n. split; [reflexivity|]. split; [apply bcg_use_iff, Hu|].
    intros j m Hj He. apply bcg_use_iff in He. specialize (Hmin j). rewrite bcg_zspec_nth, Hj in Hmin. specialize (Hmin _ eq_refl He).
    rewrite !Hm in Hmin. exact Hmin.
  - intros i n Hn He. apply bcg_use_iff in He. specialize (H i). rewrite bcg_zspec_nth, Hn in H. specialize (H _ eq_refl). congruence.
Qed.
Lemma bcg_keeps rlam z l o l' : bcg_find false rlam z l = Ok (o, l') -> l' = l.
Proof. intros H. destruct (bcg_total false rlam z l) as [o' [E _]]. rewrite H in E. injection E as _ ->. reflexivity. Qed.
Lemma bcg_overwrites rlam z l o l' i n : bcg_find true rlam z l = Ok (o, l') -> nth_error l i = Some n -> (0 < b_zspec n)%Q ->
  exists n', nth_error l' i = Some n' /\ b_zred n' = b_zspec n.
Proof.
  intros H Hi Hz. destruct (bcg_total true rlam z l) as [o' [E _]]. rewrite H in E. assert (El : l' = bcg_zspec true l) by congruence. rewrite El. clear El E.
  rewrite bcg_zspec_nth, Hi. cbn. apply Qlt_bool_iff in Hz. rewrite Hz. eexists. split; reflexivity.
Qed.

(** ** consequences for WcenZred *)
Lemma wcen_dist asort maxcen lam sc rlam l o : argsort_spec asort -> wcen_find asort maxcen lam sc rlam l = Ok o ->
  wo_ngood o <> 0 -> in_unit (wo_pcen o) /\ (Qsum (wo_pcen o) == 1)%Q /\ in_unit (wo_qcen o) /\
  (0 < Qsum (wo_qcen o) /\ Qsum (wo_qcen o) < 1)%Q /\ wo_qmiss o = 0%Q.
Proof.
  intros HA H Hg. destruct (wcen_cases _ _ _ _ _ _ _ HA H) as [[ps W]|[Hz _]]; [|congruence].
  destruct W. rewrite wp_pcen0, wp_qcen0, wp_qmiss0. cbv zeta.
  set (un := map (unnorm ps) (seq 0 (List.length ps))). pose proof (prod_pos ps wp_unit0) as HT.
  set (T := Qprod _) in *. pose proof (un_sum_pos ps (Qsum un) wp_unit0 wp_ne0 (Qle_refl _)) as HS. fold un in HS.
  repeat split.
  - apply (norm_bounds ps (Qsum un) wp_unit0 wp_ne0 (Qle_refl _) x H0).
  - apply (norm_bounds ps (Qsum un) wp_unit0 wp_ne0 (Qle_refl _) x H0).
  - pose proof (norm_sum ps (Qsum un) wp_unit0 wp_ne0 (Qle_refl _)) as E. fold un in E. nra.
  - assert (HD : (Qsum un <= T + Qsum un)%Q) by lra. apply (norm_bounds ps _ wp_unit0 wp_ne0 HD x H0).
  - assert (HD : (Qsum un <= T + Qsum un)%Q) by lra. apply (norm_bounds ps _ wp_unit0 wp_ne0 HD x H0).
  - assert (HD : (Qsum un <= T + Qsum un)%Q) by lra. pose proof (norm_sum ps _ wp_unit0 wp_ne0 HD) as E. fold un in E. nra.
  - assert (HD : (Qsum un <= T + Qsum un)%Q) by lra. pose proof (norm_sum ps _ wp_unit0 wp_ne0 HD) as E. fold un in E. nra.
Qed.

Lemma wcen_triple asort maxcen lam sc rlam l o k i n : argsort_spec asort -> wcen_find asort maxcen lam sc rlam l = Ok o ->
  nth_error (wo_index o) k = Some i -> nth_error l i = Some n ->
  exists pc pf psat, nth_error (wo_pcen o) k = Some pc /\ nth_error (wo_pfg o) k = Some pf /\ nth_error (wo_psat o) k = Some psat /\
   (~ ((lam - 1) * floor10 (w_usat n) + w_bkg n == 0)%Q -> (pc + pf + psat == 1)%Q) /\
   (((lam - 1) * floor10 (w_usat n) + w_bkg n == 0)%Q -> (pf == 0 /\ psat == 0)%Q).
Proof.
  intros HA H Hk Hn.
  assert (G : exists pc, nth_error (wo_pcen o) k = Some pc /\ nth_error (wo_pfg o) k = Some ((1 - pc) * fg_basic lam n)%Q /\
       nth_error (wo_psat o) k = Some ((1 - pc) * sat_basic lam n)%Q).
  { destruct (wcen_cases _ _ _ _ _ _ _ HA H) as [[ps W]|(_ & Hp & _ & _ & Hi & _ & n' & Hn' & _ & _ & _ & Hf & Hs)].
    - destruct (wp_cand _ _ _ _ _ _ _ _ W k i Hk) as (n' & Hn' & _ & _ & _ & pc & H1 & H2 & H3).
      assert (n' = n) by congruence. subst. eauto.
    - rewrite Hi in Hk. destruct k as [|[|k]]; [|discriminate|discriminate]. injection Hk as <-. assert (n' = n) by congruence. subst.
      exists 0%Q. rewrite Hp, Hf, Hs. auto. }
  destruct G as (pc & H1 & H2 & H3). exists pc, ((1 - pc) * fg_basic lam n)%Q, ((1 - pc) * sat_basic lam n)%Q.
  do 3 (split; [assumption|]). unfold fg_basic, sat_basic. cbv zeta. split; intros Hd.
  - destruct (Qeq_bool _ 0) eqn:E; [apply Qeq_bool_iff in E; contradiction|]. field. exact Hd.
  - apply Qeq_bool_iff in Hd. rewrite Hd. split; ring.
Qed.

Lemma wcen_list asort maxcen lam sc rlam l o : argsort_spec asort -> 0 < maxcen -> wcen_find asort maxcen lam sc rlam l = Ok o ->
  1 <= List.length (wo_index o) <= maxcen /\ List.length (wo_pcen o) = List.length (wo_index o) /\ NoDup (wo_index o) /\
  descending (wo_pcen o) /\ nth_error (wo_index o) 0 = Some (wo_maxind o) /\
  (forall i, In i (wo_index o) -> exists n, nth_error l i = Some n /\ may_be_center rlam n).
Proof.
  intros HA Hmc H.
  destruct (wcen_cases _ _ _ _ _ _ _ HA H) as [[ps W]|(_ & Hp & _ & _ & Hi & _ & n' & Hn' & Hr & Hc & _)].
  - destruct W.
    set (un := map (unnorm ps) (seq 0 (List.length ps))) in *. repeat split; auto.
    + rewrite wp_len0. destruct ps; [congruence|cbn; lia].
    + lia.
    + rewrite wp_pcen0. cbv zeta. unfold un. rewrite !map_length, seq_length. lia.
    + unfold descending. rewrite wp_pcen0. cbv zeta. intros i j x y Hij Hx Hy.
      apply (norm_sorted ps (Qsum un) wp_unit0 wp_ne0 (Qle_refl _) i j x y wp_sorted0 Hij Hx Hy).
    + intros i Hin. apply In_nth_error in Hin. destruct Hin as [k Hk]. destruct (wp_cand0 k i Hk) as (n & H1 & H2 & H3 & _).
      exists n. repeat split; auto.
  - rewrite Hi, Hp. repeat split; cbn; auto; try lia.
    + constructor; [intros []|constructor].
    + intros [|i] [|j] x y Hij; cbn; try lia; try discriminate; destruct j; discriminate.
    + intros i [<-|[]]. exists n'. repeat split; auto.
Qed.

(** every galaxy kept out has no larger probability of being central than those kept *)
Lemma wcen_best asort maxcen lam sc rlam l o i n j m : argsort_spec asort -> wcen_find asort maxcen lam sc rlam l = Ok o ->
  In i (wo_index o) -> nth_error l i = Some n -> nth_error l j = Some m -> may_be_center rlam m -> ~ In j (wo_index o) ->
  wo_ngood o <> 0 -> (pcen_basic lam sc m <= pcen_basic lam sc n)%Q.
Proof.
  intros HA H Hi Hn Hj [Hr Hc] Hno Hg.
  destruct (wcen_cases _ _ _ _ _ _ _ HA H) as [[ps W]|[Hz _]]; [|congruence]. destruct W.
  apply In_nth_error in Hi. destruct Hi as [k Hk]. destruct (wp_cand0 k i Hk) as (n' & H1 & _ & _ & H2 & _).
  assert (n' = n) by congruence. subst n'. assert (Hin : In (pcen_basic lam sc n) ps) by (apply nth_error_In with k; exact H2).
  destruct (Qlt_le_dec 0 (pcen_basic lam sc m)) as [Hp|Hp].
  - destruct (wp_rest0 j m Hj Hr Hc Hp) as [C|[_ Hle]]; [contradiction|]. apply Hle, Hin.
  - destruct (wp_unit0 _ Hin). lra.
Qed.
(** it always answers when there is a candidate *)
Lemma wcen_total asort maxcen lam sc rlam l : argsort_spec asort -> 0 < maxcen ->
  (exists i n, nth_error l i = Some n /\ may_be_center rlam n) -> exists o, wcen_find asort maxcen lam sc rlam l = Ok o.
Proof.
  intros HA Hm (i & n & Hi & Hr & Hc). unfold wcen_find.
  pose proof (np_where_spec (fun n => Qlt_bool (w_r n) rlam && w_cut n) l) as WU.
  set (use := np_where (fun n => Qlt_bool (w_r n) rlam && w_cut n) l) in *.
  assert (Hin : In i use) by (apply WU; exists n; split; [exact Hi|]; apply Qlt_bool_iff in Hr; rewrite Hr, Hc; reflexivity).
  destruct (np_take_total l use) as [cand Ec]. { intros a Ha. apply WU in Ha. destruct Ha as [x [Hx _]]. apply nth_error_Some. congruence. }
  rewrite Ec. cbn [bind]. pose proof (np_take_len _ _ _ Ec) as Lc.
  assert (Hcl : 0 < List.length cand). { rewrite Lc. destruct use; [contradiction|cbn; lia]. }
  set (pb := map (pcen_basic lam sc) cand). pose proof (np_where_spec (fun p => Qlt_bool 0 p) pb) as WO.
  destruct (np_where (fun p => Qlt_bool 0 p) pb) as [|o0 os] eqn:Eo.
  - destruct (argmin_ok (map w_r cand)) as (m & x & Em & Hx & _); [destruct cand; [cbn in Hcl; lia|discriminate]|].
    rewrite Em. cbn [bind].
    assert (Hml : m < List.length cand). { rewrite <- (map_length w_r). apply nth_error_Some. congruence. }
    destruct (np_take_total cand [m]) as [cg Ecg]; [intros a [<-|[]]; exact Hml|].
    destruct (np_take_total use [m]) as [ix Eix]; [intros a [<-|[]]; lia|].
    rewrite Ecg, Eix. cbn [bind]. pose proof (np_take_len _ _ _ Eix) as Lx. destruct ix; [discriminate|]. eauto.
  - set (ok := o0 :: os) in *.
    destruct (np_take_total pb ok) as [pok Epok]. { intros a Ha. apply WO in Ha. destruct Ha as [x [Hx _]]. apply nth_error_Some. congruence. }
    rewrite Epok. cbn [bind]. pose proof (np_take_len _ _ _ Epok) as Lp.
    destruct (np_take_total ok (desc asort pok)) as [ord Eord]. { intros a Ha. apply desc_In in Ha; [lia|exact HA]. }
    rewrite Eord. cbn [bind]. pose proof (np_take_len _ _ _ Eord) as Lo. pose proof (desc_length asort pok HA) as Ld.
    assert (Hgood : forall a, In a (firstn maxcen ord) -> a < List.length pb).
    { intros a Ha. assert (Ha' : In a ord) by (rewrite <- (firstn_skipn maxcen ord); apply in_or_app; left; exact Ha).
      apply (np_take_In _ _ _ _ Eord) in Ha'. destruct Ha' as [d [_ Hd]]. apply nth_error_In in Hd. apply WO in Hd.
      destruct Hd as [x [Hx _]]. apply nth_error_Some. congruence. }
    assert (Lpb : List.length pb = List.length cand) by apply map_length.
    destruct (np_take_total pb (firstn maxcen ord) Hgood) as [ps Eps].
    destruct (np_take_total cand (firstn maxcen ord)) as [cg Ecg]; [intros a Ha; apply Hgood in Ha; lia|].
    destruct (np_take_total use (firstn maxcen ord)) as [ix Eix]; [intros a Ha; apply Hgood in Ha; lia|].
    rewrite Eps. cbn [bind]. rewrite Ecg, Eix. cbn [bind]. pose proof (np_take_len _ _ _ Eix) as Lx.
    destruct ix; [exfalso|eauto]. rewrite firstn_length in Lx. cbn in Lx. subst ok. cbn in Lp. lia.
Qed.
