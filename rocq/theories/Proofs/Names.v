From Coq Require Import Ascii String Sorting.Sorted Permutation.
From Verif.Base Require Import Py PyLemmas Sort.
From Verif.Model Require Import Chunks Names.
From Verif.Spec Require Import Names.
From Verif.Proofs Require Import Chunks Randoms.
From Coq Require Import Lia ZArith List.
Import ListNotations.
Local Open Scope nat_scope.
Local Open Scope list_scope.

Lemma str_eqb_iff a : forall b, str_eqb a b = true <-> a = b.
Proof.
  induction a as [|x a IH]; intros [|y b]; cbn; try (split; congruence).
  rewrite Bool.andb_true_iff, Ascii.eqb_eq, IH. split; [intros [-> ->]; reflexivity|intros [= -> ->]; auto].
Qed.
Lemma char_in_iff cs c : char_in cs c = true <-> In c cs.
Proof. unfold char_in. rewrite existsb_exists. split; [intros (x & Hx & E); apply Ascii.eqb_eq in E; subst; exact Hx|intros H; exists c; split; [exact H|apply Ascii.eqb_refl]]. Qed.

(** *** rstrip *)
Lemma drop_app p s t : forallb p t = true -> drop_while p (t ++ s) = drop_while p s.
Proof. induction t as [|c t IH]; cbn; [reflexivity|]. rewrite Bool.andb_true_iff. intros [-> H]. exact (IH H). Qed.
Lemma rstrip_fit base : rstrip (s_ ".fit") (base ++ s_ ".fit") = rstrip (s_ ".fit") base.
Proof. unfold rstrip. rewrite rev_app_distr, drop_app; [reflexivity|reflexivity]. Qed.
Lemma drop_while_len p s : length (drop_while p s) <= length s.
Proof. induction s as [|c s IH]; cbn; [lia|]. destruct (p c); cbn; lia. Qed.
Lemma rstrip_snoc cs base c : rstrip cs (base ++ [c]) = if char_in cs c then rstrip cs base else base ++ [c].
Proof.
  unfold rstrip. rewrite rev_app_distr. cbn. destruct (char_in cs c); [reflexivity|]. cbn. now rewrite rev_involutive.
Qed.
Lemma rstrip_len cs base : length (rstrip cs base) <= length base.
Proof. unfold rstrip. rewrite rev_length. etransitivity; [apply drop_while_len|]. now rewrite rev_length. Qed.
Lemma members_iff base :
  members_file (base ++ s_ ".fit") = base ++ s_ "_members.fit" <->
  (forall b c, base = b ++ [c] -> ~ In c (s_ ".fit")).
Proof.
  unfold members_file. rewrite rstrip_fit. split.
  - intros H b c -> Hc. apply app_inv_tail in H. rewrite rstrip_snoc in H.
    rewrite (proj2 (char_in_iff _ _) Hc) in H. pose proof (rstrip_len (s_ ".fit") b) as L.
    rewrite H, app_length in L. cbn in L. lia.
  - intros H. f_equal. destruct (rev base) as [|c r] eqn:E.
    + apply (f_equal (@rev _)) in E. rewrite rev_involutive in E. subst base. reflexivity.
    + apply (f_equal (@rev _)) in E. rewrite rev_involutive in E. cbn in E. subst base.
      rewrite rstrip_snoc. destruct (char_in (s_ ".fit") c) eqn:Ec; [|reflexivity].
      exfalso. exact (H _ _ eq_refl (proj1 (char_in_iff _ _) Ec)).
Qed.

(** *** digits *)
Lemma digit_ok d : (0 <= d < 10)%Z -> is_digit (digit d) = true /\ digit_val (digit d) = d.
Proof.
  intros H. assert (C : (d = 0 \/ d = 1 \/ d = 2 \/ d = 3 \/ d = 4 \/ d = 5 \/ d = 6 \/ d = 7 \/ d = 8 \/ d = 9)%Z) by lia.
  repeat (destruct C as [->|C]; [split; reflexivity|]). subst. split; reflexivity.
Qed.
Lemma digits_len n p : length (digits n p) = n.
Proof. revert p; induction n as [|n IH]; intros p; cbn; [reflexivity|]. rewrite app_length, IH. cbn. lia. Qed.
Lemma digits_digit n p : (0 <= p)%Z -> forallb is_digit (digits n p) = true.
Proof.
  revert p; induction n as [|n IH]; intros p Hp; [reflexivity|]. cbn [digits].
  rewrite forallb_app, IH by (apply Z.div_pos; lia). cbn [forallb]. rewrite (proj1 (digit_ok _ (Z.mod_pos_bound p 10 ltac:(lia)))). reflexivity.
Qed.
Lemma parse_app a b : forall x, fold_left (fun a c => 10 * a + digit_val c)%Z (a ++ [b]) x = (10 * fold_left (fun a c => 10 * a + digit_val c)%Z a x + digit_val b)%Z.
Proof. intros x. rewrite fold_left_app. reflexivity. Qed.
Lemma parse_digits n p : (0 <= p)%Z -> parse (digits n p) = (p mod 10 ^ Z.of_nat n)%Z.
Proof.
  unfold parse. revert p; induction n as [|n IH]; intros p Hp; [cbn; now rewrite Z.mod_1_r|].
  change (digits (S n) p) with (digits n (p / 10) ++ [digit (p mod 10)]).
  rewrite parse_app, IH by (apply Z.div_pos; lia).
  rewrite (proj2 (digit_ok _ (Z.mod_pos_bound p 10 ltac:(lia)))).
  rewrite Nat2Z.inj_succ, Z.pow_succ_r by lia.
  rewrite (Z.rem_mul_r p 10 (10 ^ Z.of_nat n)) by (try apply Z.pow_nonzero; lia). lia.
Qed.
Lemma parse_numeral_gen s : forall x, fold_left (fun a c => 10 * a + digit_val c)%Z s x = (x * 10 ^ Z.of_nat (length s) + numeral s)%Z.
Proof.
  induction s as [|c s IH]; intros x; cbn [fold_left numeral length]; [cbn; lia|].
  rewrite IH, Nat2Z.inj_succ, Z.pow_succ_r by lia. ring.
Qed.
Lemma parse_numeral s : parse s = numeral s.
Proof. unfold parse. rewrite parse_numeral_gen. lia. Qed.
Lemma ndigits_le k : forall f p, (0 <= p < 10 ^ Z.of_nat (S k))%Z -> ndigits f p <= S k.
Proof.
  induction k as [|k IH]; intros [|f] p Hp; cbn [ndigits]; try lia.
  - destruct (p <? 10)%Z eqn:E; [lia|]. apply Z.ltb_ge in E. cbn in Hp. lia.
  - destruct (p <? 10)%Z eqn:E; [lia|]. apply Z.ltb_ge in E.
    assert (ndigits f (p / 10) <= S k); [|lia]. apply IH. split; [apply Z.div_pos; lia|].
    apply Z.div_lt_upper_bound; [lia|]. rewrite (Nat2Z.inj_succ (S k)), Z.pow_succ_r in Hp by lia. lia.
Qed.
Lemma ndigits_ge k : forall f p, k <= f -> (10 ^ Z.of_nat k <= p)%Z -> S k <= ndigits f p.
Proof.
  induction k as [|k IH]; intros f p Hf Hp; [destruct f; cbn; [lia|]; destruct (p <? 10)%Z; lia|].
  destruct f as [|f]; [lia|]. cbn [ndigits]. rewrite Nat2Z.inj_succ, Z.pow_succ_r in Hp by lia.
  assert (P := Z.pow_pos_nonneg 10 (Z.of_nat k) ltac:(lia) ltac:(lia)).
  destruct (p <? 10)%Z eqn:E; [apply Z.ltb_lt in E; lia|].
  assert (S k <= ndigits f (p / 10)); [|lia]. apply IH; [lia|]. apply Z.div_le_lower_bound; lia.
Qed.
Lemma fmt7 p : (0 <= p < 10 ^ 7)%Z -> fmt 7 p = digits 7 p.
Proof. intros H. unfold fmt. rewrite Nat.max_l; [reflexivity|]. exact (ndigits_le 6 _ _ H). Qed.
Lemma fmt7_long p : (10 ^ 7 <= p)%Z -> 8 <= length (fmt 7 p).
Proof.
  intros H. unfold fmt. rewrite digits_len. pose proof (ndigits_ge 7 (Z.to_nat p) p) as G.
  assert (7 <= Z.to_nat p) by (change (10 ^ 7)%Z with 10000000%Z in H; apply Nat2Z.inj_le; rewrite Z2Nat.id; lia). specialize (G H0 H). lia.
Qed.

(** *** the regular expression *)
Lemma take_digits_app n d r : length d = n -> forallb is_digit d = true -> take_digits n (d ++ r) = Some d.
Proof.
  revert n; induction d as [|c d IH]; intros n <-; cbn; [reflexivity|]. rewrite Bool.andb_true_iff. intros [-> H].
  rewrite (IH _ eq_refl H). reflexivity.
Qed.
Lemma take_digits_inv n : forall s d, take_digits n s = Some d -> length d = n /\ forallb is_digit d = true /\ exists r, s = d ++ r.
Proof.
  induction n as [|n IH]; intros s d H; cbn in H; [injection H as <-; split; [reflexivity|split; [reflexivity|exists s; reflexivity]]|].
  destruct s as [|c t]; [discriminate|]. destruct (is_digit c) eqn:E; [|discriminate].
  destruct (take_digits n t) as [r|] eqn:Er; [|discriminate]. injection H as <-.
  destruct (IH _ _ Er) as (L & F & r' & ->). cbn [length forallb]. rewrite E, L, F. split; [reflexivity|split; [reflexivity|exists r'; reflexivity]].
Qed.
Lemma take_digits_under n : forall x t, take_digits n (x ++ "_"%char :: t) = take_digits n x.
Proof.
  induction n as [|n IH]; intros x t; [destruct x; reflexivity|].
  destruct x as [|c x]; [reflexivity|]. cbn [take_digits app]. rewrite IH. reflexivity.
Qed.
Lemma search7_under x t : search7 (x ++ "_"%char :: t) = match search7 x with Some r => Some r | None => search7 ("_"%char :: t) end.
Proof.
  induction x as [|c x IH]; [reflexivity|].
  change (search7 ((c :: x) ++ "_"%char :: t)) with
    (match (if Ascii.eqb c "_"%char then take_digits 7 (x ++ "_"%char :: t) else None) with Some r => Some r | None => search7 (x ++ "_"%char :: t) end).
  change (search7 (c :: x)) with (match (if Ascii.eqb c "_"%char then take_digits 7 x else None) with Some r => Some r | None => search7 x end).
  rewrite take_digits_under, IH. destruct (Ascii.eqb c "_"%char); [|reflexivity]. destruct (take_digits 7 x); reflexivity.
Qed.
Lemma search7_some s d : search7 s = Some d -> length d = 7 /\ forallb is_digit d = true /\ exists a b, s = a ++ s_ "_" ++ d ++ b.
Proof.
  induction s as [|c t IH]; [discriminate|].
  change (search7 (c :: t)) with (match (if Ascii.eqb c "_"%char then take_digits 7 t else None) with Some r => Some r | None => search7 t end).
  destruct (Ascii.eqb_spec c "_"%char) as [E|E].
  - destruct (take_digits 7 t) as [r|] eqn:Et.
    + intros [= <-]. destruct (take_digits_inv _ _ _ Et) as (L & F & b & ->). subst c. split; [exact L|split; [exact F|]]. exists [], b. reflexivity.
    + intros H. destruct (IH H) as (L & F & a & b & ->). split; [exact L|split; [exact F|]]. exists (c :: a), b. reflexivity.
  - intros H. destruct (IH H) as (L & F & a & b & ->). split; [exact L|split; [exact F|]]. exists (c :: a), b. reflexivity.
Qed.
Lemma search7_has s : search7 s <> None <-> has_pixel_text s.
Proof.
  split.
  - destruct (search7 s) as [d|] eqn:E; [|congruence]. intros _. destruct (search7_some _ _ E) as (L & F & a & b & H). exists a, d, b. auto.
  - intros (a & d & b & -> & L & F). change (s_ "_" ++ d ++ b) with ("_"%char :: (d ++ b)). rewrite search7_under.
    destruct (search7 a); [discriminate|].
    change (search7 ("_"%char :: d ++ b)) with (match take_digits 7 (d ++ b) with Some r => Some r | None => search7 (d ++ b) end).
    rewrite (take_digits_app 7 d b L F). discriminate.
Qed.
Lemma search7_file outpath outbase p :
  (0 <= p < 10 ^ 7)%Z ->
  search7 (pixel_file outpath outbase p) = match search7 (outpath ++ s_ "/" ++ outbase) with Some d => Some d | None => Some (digits 7 p) end.
Proof.
  intros Hp. unfold pixel_file. rewrite !app_assoc. rewrite <- (app_assoc ((outpath ++ s_ "/") ++ outbase)).
  rewrite <- app_assoc. change (s_ "_" ++ fmt 7 p) with ("_"%char :: fmt 7 p). rewrite <- app_comm_cons, search7_under.
  rewrite <- app_assoc. destruct (search7 (outpath ++ s_ "/" ++ outbase)); [reflexivity|].
  change (search7 ("_"%char :: fmt 7 p ++ s_ ".fit")) with (match take_digits 7 (fmt 7 p ++ s_ ".fit") with Some r => Some r | None => search7 (fmt 7 p ++ s_ ".fit") end).
  rewrite fmt7 by exact Hp. rewrite take_digits_app; [reflexivity|apply digits_len|apply digits_digit; lia].
Qed.
Lemma prefix_app p s : prefix_of p (p ++ s) = Some s.
Proof. induction p as [|c p IH]; cbn; [reflexivity|]. rewrite Ascii.eqb_refl. exact IH. Qed.
Lemma prefix_some p : forall s r, prefix_of p s = Some r -> s = p ++ r.
Proof.
  induction p as [|c p IH]; intros s r H; cbn in H; [now injection H as <-|].
  destruct s as [|x s]; [discriminate|]. destruct (Ascii.eqb_spec c x) as [->|]; [|discriminate]. cbn. f_equal. exact (IH _ _ H).
Qed.
Lemma not_slash d : forallb is_digit d = true -> char_in d "/"%char = false.
Proof.
  intros H. destruct (char_in d "/"%char) eqn:E; [|reflexivity]. apply char_in_iff in E.
  rewrite forallb_forall in H. apply H in E. discriminate.
Qed.
Lemma glob7_file outpath outbase p : (0 <= p < 10 ^ 7)%Z -> glob7 outpath outbase (pixel_file outpath outbase p) = true.
Proof.
  intros Hp. unfold glob7, pixel_file. rewrite fmt7 by exact Hp.
  replace (outpath ++ s_ "/" ++ outbase ++ s_ "_" ++ digits 7 p ++ s_ ".fit") with ((outpath ++ s_ "/" ++ outbase ++ s_ "_") ++ (digits 7 p ++ s_ ".fit")) by (rewrite <- !app_assoc; reflexivity).
  rewrite prefix_app. rewrite skipn_app, digits_len, firstn_app, digits_len.
  rewrite skipn_all2 by (rewrite digits_len; lia). rewrite firstn_all2 by (rewrite digits_len; lia).
  replace (7 - 7) with 0 by reflexivity. cbn [skipn firstn app]. rewrite app_nil_r, not_slash by (apply digits_digit; lia). reflexivity.
Qed.
Lemma glob7_long outpath outbase p : (10 ^ 7 <= p)%Z -> glob7 outpath outbase (pixel_file outpath outbase p) = false.
Proof.
  intros Hp. unfold glob7, pixel_file. pose proof (fmt7_long _ Hp) as L.
  replace (outpath ++ s_ "/" ++ outbase ++ s_ "_" ++ fmt 7 p ++ s_ ".fit") with ((outpath ++ s_ "/" ++ outbase ++ s_ "_") ++ (fmt 7 p ++ s_ ".fit")) by (rewrite <- !app_assoc; reflexivity).
  rewrite prefix_app. destruct (str_eqb (skipn 7 (fmt 7 p ++ s_ ".fit")) (s_ ".fit")) eqn:E; [|reflexivity].
  apply str_eqb_iff in E. apply (f_equal (@length _)) in E. rewrite skipn_length, app_length in E. change (length (s_ ".fit")) with 4 in E. unfold str in *. lia.
Qed.

(** *** recounting *)
Definition upd (counts : list nat) (p : nat) (v : nat) := firstn p counts ++ [v] ++ skipn (S p) counts.
Lemma upd_len counts p v : p < length counts -> length (upd counts p v) = length counts.
Proof. intros H. unfold upd. rewrite !app_length, firstn_length, skipn_length. cbn. lia. Qed.
Lemma upd_nth counts p v k : p < length counts -> nth k (upd counts p v) 0 = if k =? p then v else nth k counts 0.
Proof.
  intros H. unfold upd. destruct (Nat.eqb_spec k p) as [->|N].
  - rewrite app_nth2 by (rewrite firstn_length; lia). rewrite firstn_length, Nat.min_l by lia.
    replace (p - p) with 0 by lia. reflexivity.
  - destruct (Nat.lt_ge_cases k p) as [Lt|Ge].
    + rewrite app_nth1 by (rewrite firstn_length; lia). rewrite <- (firstn_skipn p counts) at 2.
      rewrite app_nth1 by (rewrite firstn_length; lia). reflexivity.
    + rewrite app_nth2 by (rewrite firstn_length; lia). rewrite firstn_length, Nat.min_l by lia.
      destruct (k - p) as [|j] eqn:Ej; [lia|]. cbn [app nth].
      rewrite <- (firstn_skipn (S p) counts) at 2. rewrite app_nth2 by (rewrite firstn_length; lia).
      rewrite firstn_length, Nat.min_l by lia. f_equal. lia.
Qed.
Definition step (npix : nat) := (fun (r : res (list nat)) (fr : str * nat) => do c <- r; set_count npix c (fst fr) (snd fr)).
Lemma filter_files outpath outbase pixels rows :
  (forall p, In p pixels -> (0 <= p < 10 ^ 7)%Z) ->
  filter (fun fr => glob7 outpath outbase (fst fr)) (pixel_files outpath outbase pixels rows) = pixel_files outpath outbase pixels rows.
Proof.
  induction pixels as [|p l IH]; intros H; [reflexivity|]. cbn [pixel_files map filter fst].
  rewrite glob7_file by (apply H; left; reflexivity). f_equal. apply IH. intros q Hq. apply H. right. exact Hq.
Qed.
Lemma recount_fold npix outpath outbase rows (pixels : list Z) :
  search7 (outpath ++ s_ "/" ++ outbase) = None ->
  (forall p, In p pixels -> (0 <= p < 10 ^ 7)%Z /\ (Z.to_nat p < npix)%nat) ->
  forall c, length c = npix ->
  exists c', fold_left (step npix) (pixel_files outpath outbase pixels rows) (Ok c) = Ok c' /\ length c' = npix /\
    forall k, nth k c' 0 = if existsb (fun p => Nat.eqb (Z.to_nat p) k) pixels then rows (Z.of_nat k) else nth k c 0.
Proof.
  intros S. induction pixels as [|p l IH]; intros H c L.
  - exists c. cbn. auto.
  - destruct (H p (or_introl eq_refl)) as [Hp Hn].
    cbn [pixel_files map fold_left]. unfold step at 2. cbn [bind fst snd].
    unfold set_count. rewrite search7_file, S by exact Hp. cbn zeta. rewrite parse_digits by lia.
    rewrite Z.mod_small by exact Hp. rewrite (proj2 (Nat.ltb_lt _ _) Hn). fold (upd c (Z.to_nat p) (rows p)).
    destruct (IH (fun q Hq => H q (or_intror Hq)) (upd c (Z.to_nat p) (rows p))) as (c' & E & L' & N).
    { rewrite upd_len; lia. }
    exists c'. split; [exact E|]. split; [exact L'|]. intros k. rewrite N. cbn [existsb].
    destruct (existsb _ l); [now rewrite Bool.orb_true_r|]. rewrite Bool.orb_false_r, upd_nth by lia. rewrite Nat.eqb_sym.
    destruct (Nat.eqb_spec (Z.to_nat p) k) as [E1|]; [|reflexivity]. subst k. rewrite Z2Nat.id by lia. reflexivity.
Qed.
Lemma nth_repeat0 k n : nth k (repeat 0 n) 0 = 0.
Proof. revert k; induction n as [|n IH]; intros [|k]; cbn; auto. Qed.
Lemma recount_ok npix outpath outbase pixels rows files :
  ~ has_pixel_text (outpath ++ s_ "/" ++ outbase) ->
  (forall p, In p pixels -> (0 <= p < 10 ^ 7)%Z /\ (Z.to_nat p < npix)%nat) ->
  filter (fun fr => glob7 outpath outbase (fst fr)) files = pixel_files outpath outbase pixels rows ->
  exists c, recount npix outpath outbase files = Ok c /\ length c = npix /\
    forall p, (0 <= p)%Z -> nth (Z.to_nat p) c 0 = if existsb (Z.eqb p) pixels then rows p else 0.
Proof.
  intros Hn H Hf.
  assert (S : search7 (outpath ++ s_ "/" ++ outbase) = None).
  { destruct (search7 (outpath ++ s_ "/" ++ outbase)) eqn:E; [|reflexivity]. exfalso. apply Hn. apply search7_has. congruence. }
  destruct (recount_fold npix outpath outbase rows pixels S H (repeat 0 npix) (repeat_length _ _)) as (c & E & L & N).
  exists c. split; [unfold recount; rewrite Hf; exact E|]. split; [exact L|]. intros p Hp.
  rewrite N, nth_repeat0, Z2Nat.id by exact Hp.
  assert (Q : existsb (fun q => Nat.eqb (Z.to_nat q) (Z.to_nat p)) pixels = existsb (Z.eqb p) pixels).
  { clear - H Hp. induction pixels as [|q l IH]; [reflexivity|]. cbn [existsb]. rewrite IH by (intros x Hx; apply H; right; exact Hx).
    f_equal. destruct (H q (or_introl eq_refl)) as [Hq _]. destruct (Z.eqb_spec p q) as [->|N]; [apply Nat.eqb_refl|].
    apply Nat.eqb_neq. intros E. apply N. lia. }
  rewrite Q. reflexivity.
Qed.
Lemma recount_wrong npix outpath outbase pixels rows d :
  search7 (outpath ++ s_ "/" ++ outbase) = Some d -> Z.to_nat (numeral d) < npix ->
  (forall p, In p pixels -> (0 <= p < 10 ^ 7)%Z) ->
  exists c, recount npix outpath outbase (pixel_files outpath outbase pixels rows) = Ok c /\
    forall k, k <> Z.to_nat (numeral d) -> nth k c 0 = 0.
Proof.
  intros S Hd H. unfold recount. rewrite filter_files by exact H.
  assert (G : forall c, length c = npix -> (forall k, k <> Z.to_nat (numeral d) -> nth k c 0 = 0) ->
    exists c', fold_left (step npix) (pixel_files outpath outbase pixels rows) (Ok c) = Ok c' /\ forall k, k <> Z.to_nat (numeral d) -> nth k c' 0 = 0).
  { induction pixels as [|p l IH]; intros c L N; [exists c; auto|].
    cbn [pixel_files map fold_left]. unfold step at 2. cbn [bind fst snd].
    unfold set_count. rewrite search7_file, S by (apply H; left; reflexivity). cbn zeta. rewrite parse_numeral.
    rewrite (proj2 (Nat.ltb_lt _ _) Hd). fold (upd c (Z.to_nat (numeral d)) (rows p)).
    apply (IH (fun q Hq => H q (or_intror Hq))); [rewrite upd_len; lia|].
    intros k Hk. rewrite upd_nth by lia. rewrite (proj2 (Nat.eqb_neq _ _) Hk). exact (N k Hk). }
  apply G; [apply repeat_length|]. intros k _. apply nth_repeat0.
Qed.

(** *** batch jobs *)
Definition after (old : list str) : list str := if existsb (str_eqb (job_index old)) old then old else old ++ [job_index old].
Definition ten : list str := map s_ ["1"; "2"; "3"; "4"; "5"; "6"; "7"; "8"; "9"; "10"]%string.
Lemma submissions_small n : n <= 10 -> submissions n = firstn n ten.
Proof.
  intros H. assert (G : n <= 10 -> submissions n = firstn n ten); [|exact (G H)]. clear H. induction n as [|n IH]; intros H; [reflexivity|].
  change (submissions (S n)) with (after (submissions n)). rewrite IH by lia. clear IH.
  do 10 (destruct n as [|n]; [vm_compute; reflexivity|]). lia.
Qed.
Lemma submissions_fix n : 10 <= n -> submissions n = ten.
Proof.
  induction n as [|n IH]; intros H; [lia|]. destruct (Nat.eq_dec n 9) as [->|]; [exact (submissions_small 10 (le_n _))|].
  change (submissions (S n)) with (after (submissions n)). rewrite IH by lia. vm_compute. reflexivity.
Qed.
Lemma submissions_in n : In (job_index (submissions n)) (submissions n) <-> 10 <= n.
Proof.
  split.
  - intros H. destruct (Nat.le_gt_cases 10 n) as [|L]; [assumption|]. exfalso. rewrite submissions_small in H by lia.
    do 10 (destruct n as [|n]; [vm_compute in H; intuition discriminate|]). lia.
  - intros H. rewrite (submissions_fix n H). vm_compute. intuition.
Qed.
Lemma lsf_pixels pixels : job_pixels LSF pixels = Ok pixels.
Proof.
  unfold job_pixels.
  assert (M : map (fun i => i - 1) (seq 1 (length pixels)) = seq 0 (length pixels)).
  { rewrite <- seq_shift, map_map. rewrite <- (map_id (seq 0 _)) at 2. apply map_ext. intros. lia. }
  rewrite M. 
  destruct (np_take_total pixels (seq 0 (length pixels))) as [r Hr].
  { intros i Hi. apply in_seq in Hi. lia. }
  rewrite Hr. f_equal. apply nth_error_ext. intros k.
  destruct (Nat.lt_ge_cases k (length pixels)) as [L|G].
  - destruct (np_take_nth pixels (seq 0 (length pixels)) r k k Hr) as (x & E1 & E2); [|congruence].
    rewrite nth_error_nth' with (d := 0) by (rewrite seq_length; lia). rewrite seq_nth by lia. reflexivity.
  - rewrite (proj2 (nth_error_None pixels k)) by lia. apply nth_error_None. rewrite (np_take_len _ _ _ Hr), seq_length. lia.
Qed.

(** *** names of the run *)
Lemma contains_iff pat s : contains pat s = true <-> occurs pat s.
Proof.
  split.
  - induction s as [|c t IH]; cbn.
    + destruct (prefix_of pat []) as [l|] eqn:E; [|discriminate]. intros _. apply prefix_some in E. exists [], l. exact E.
    + destruct (prefix_of pat (c :: t)) as [l|] eqn:E; [intros _; apply prefix_some in E; exists [], l; exact E|].
      intros H. destruct (IH H) as (a & b & ->). exists (c :: a), b. reflexivity.
  - intros (a & b & ->). induction a as [|c a IH]; cbn [app].
    + destruct (pat ++ b) eqn:E; cbn; rewrite <- E, prefix_app; reflexivity.
    + cbn. destruct (prefix_of pat (c :: a ++ pat ++ b)); [reflexivity|exact IH].
Qed.
Lemma prefix_length p s r : prefix_of p s = Some r -> length p <= length s.
Proof. intros H. apply prefix_some in H. subst. rewrite app_length. lia. Qed.
Lemma replace_keeps pat rep s : contains pat s = false -> replace_all pat rep s = s.
Proof.
  unfold replace_all. induction s as [|c t IH]; [reflexivity|]. cbn [contains replace_from].
  destruct (prefix_of pat (c :: t)); [discriminate|]. intros H. f_equal. exact (IH H).
Qed.
(** at the first occurrence the text changes *)
Lemma replace_changes pat rep s : length rep = length pat -> rep <> pat -> pat <> [] -> contains pat s = true -> replace_all pat rep s <> s.
Proof.
  intros L N P. unfold replace_all. induction s as [|c t IH].
  - cbn. destruct pat; [congruence|discriminate].
  - cbn [contains replace_from]. destruct (prefix_of pat (c :: t)) as [r|] eqn:E.
    + intros _ H. apply prefix_some in E. rewrite E in H.
      apply N. apply (f_equal (firstn (length pat))) in H. rewrite !firstn_app in H.
      rewrite <- L in H at 1. rewrite L, Nat.sub_diag in H. rewrite !firstn_O, !app_nil_r in H.
      rewrite firstn_all in H. rewrite <- L in H. rewrite firstn_all in H. exact H.
    + intros H X. injection X as X. exact (IH H X).
Qed.
Lemma run_dir_other cal : run_dir cal <> cal.
Proof.
  unfold run_dir. destruct (str_eqb cal (s_ "cal")) eqn:E0; [apply str_eqb_iff in E0; subst; discriminate|].
  destruct (contains (s_ "cal_") cal) eqn:E1; [apply replace_changes; try discriminate; try reflexivity; exact E1|].
  destruct (contains (s_ "_cal") cal) eqn:E2; [apply replace_changes; try discriminate; try reflexivity; exact E2|].
  intros H. apply (f_equal (@length _)) in H. rewrite app_length in H. cbn in H. lia.
Qed.
Lemma run_outbase_other cal : run_outbase cal <> cal.
Proof.
  unfold run_outbase. destruct (contains (s_ "_cal") cal) eqn:E2; [apply replace_changes; try discriminate; try reflexivity; exact E2|].
  intros H. apply (f_equal (@length _)) in H. rewrite app_length in H. cbn in H. lia.
Qed.
Lemma before_first_prefix pat s : exists r, s = before_first pat s ++ r.
Proof.
  induction s as [|c t [r IH]]; cbn [before_first].
  - destruct (prefix_of pat []); exists []; reflexivity.
  - destruct (prefix_of pat (c :: t)); [exists (c :: t); reflexivity|]. exists r. cbn. f_equal. exact IH.
Qed.
Lemma before_first_len_run p r : contains (s_ ".y") p = false -> length p < length (before_first (s_ ".y") (p ++ s_ "_run.y" ++ r)).
Proof.
  induction p as [|c p IH]; intros H.
  - cbn. lia.
  - cbn [contains] in H. cbn [app before_first].
    destruct (prefix_of (s_ ".y") (c :: p)) eqn:E; [discriminate|].
    assert (E' : prefix_of (s_ ".y") (c :: p ++ s_ "_run.y" ++ r) = None).
    { change (s_ ".y") with ["."%char; "y"%char] in *. cbn [prefix_of app] in *. destruct (Ascii.eqb "."%char c); [|reflexivity].
      destruct p as [|d p]; [reflexivity|]. cbn [app prefix_of] in *. destruct (Ascii.eqb "y"%char d); [discriminate|reflexivity]. }
    rewrite E'. cbn [length]. specialize (IH H). lia.
Qed.
Lemma before_first_no s : contains (s_ ".y") (before_first (s_ ".y") s) = false.
Proof.
  induction s as [|c t IH]; [reflexivity|]. cbn [before_first].
  destruct (prefix_of (s_ ".y") (c :: t)) eqn:E; [reflexivity|]. cbn [contains]. rewrite IH.
  assert (E' : prefix_of (s_ ".y") (c :: before_first (s_ ".y") t) = None); [|now rewrite E'].
  change (s_ ".y") with ["."%char; "y"%char] in *. cbn [prefix_of] in *. destruct (Ascii.eqb "."%char c); [|reflexivity].
  destruct t as [|d t]; [reflexivity|]. cbn [before_first prefix_of] in *. destruct (Ascii.eqb "y"%char d) eqn:Ed; [discriminate|].
  destruct (Ascii.eqb "."%char d); [destruct t as [|b t]; [|destruct (Ascii.eqb "y"%char b)]|]; try reflexivity; cbv iota beta; rewrite ?Ed; reflexivity.
Qed.
Lemma redmagic_other cfg : redmagic_runfile cfg <> cfg.
Proof.
  unfold redmagic_runfile. cbv zeta. destruct (str_eqb _ cfg) eqn:E.
  - intros H. pose proof (before_first_len_run (before_first (s_ ".y") cfg) (s_ "aml") (before_first_no cfg)) as L.
    change (s_ "_run.y" ++ s_ "aml") with (s_ "_run.yaml") in L. rewrite H in L. lia.
  - intros H. rewrite H in E. rewrite (proj2 (str_eqb_iff _ _) eq_refl) in E. discriminate.
Qed.
(** *** the directory of the configuration *)
Lemma contains_cons pat c t : contains pat (c :: t) = match prefix_of pat (c :: t) with Some _ => true | None => contains pat t end.
Proof. reflexivity. Qed.
Lemma prefix_slash pat : forall d b, ~ In "/"%char pat -> prefix_of pat d = None -> d <> [] -> prefix_of pat (d ++ "/"%char :: b) = None.
Proof.
  induction pat as [|x pat IH]; intros d b Hn H Hd; [discriminate|]. destruct d as [|y d]; [congruence|].
  cbn [prefix_of app] in *. destruct (Ascii.eqb x y); [|reflexivity].
  destruct d as [|z d].
  - cbn [app]. destruct pat as [|w pat]; [discriminate|]. cbn [prefix_of]. destruct (Ascii.eqb_spec w "/"%char) as [->|]; [|reflexivity].
    exfalso. apply Hn. right. left. reflexivity.
  - apply IH; [|exact H|congruence]. intros F. apply Hn. right. exact F.
Qed.
Lemma replace_dir pat rep d b :
  ~ In "/"%char pat -> pat <> [] -> contains pat d = false -> replace_all pat rep (d ++ "/"%char :: b) = d ++ "/"%char :: replace_all pat rep b.
Proof.
  intros Hn Hp. unfold replace_all. induction d as [|c d IH]; intros H.
  - cbn [app replace_from]. destruct pat as [|x pat]; [congruence|]. cbn [prefix_of].
    destruct (Ascii.eqb_spec x "/"%char) as [->|]; [exfalso; apply Hn; left; reflexivity|]. reflexivity.
  - rewrite contains_cons in H. destruct (prefix_of pat (c :: d)) eqn:E; [discriminate|].
    cbn [app replace_from]. change (c :: d ++ "/"%char :: b) with ((c :: d) ++ "/"%char :: b).
    rewrite (prefix_slash pat (c :: d) b Hn E) by congruence. f_equal. exact (IH H).
Qed.
Lemma before_dir pat d b :
  ~ In "/"%char pat -> pat <> [] -> contains pat d = false -> before_first pat (d ++ "/"%char :: b) = d ++ "/"%char :: before_first pat b.
Proof.
  intros Hn Hp. induction d as [|c d IH]; intros H.
  - cbn [app before_first]. destruct pat as [|x pat]; [congruence|]. cbn [prefix_of].
    destruct (Ascii.eqb_spec x "/"%char) as [->|]; [exfalso; apply Hn; left; reflexivity|]. reflexivity.
  - rewrite contains_cons in H. destruct (prefix_of pat (c :: d)) eqn:E; [discriminate|].
    cbn [app before_first]. change (c :: d ++ "/"%char :: b) with ((c :: d) ++ "/"%char :: b).
    rewrite (prefix_slash pat (c :: d) b Hn E) by congruence. f_equal. exact (IH H).
Qed.
Lemma redmagic_same_dir d b :
  ~ occurs (s_ "cal") d -> ~ occurs (s_ ".y") d ->
  redmagic_runfile (d ++ s_ "/" ++ b) = d ++ s_ "/" ++ redmagic_runfile b.
Proof.
  intros H1 H2. change (s_ "/" ++ b) with ("/"%char :: b). change (s_ "/" ++ redmagic_runfile b) with ("/"%char :: redmagic_runfile b).
  assert (C1 : contains (s_ "cal") d = false) by (destruct (contains (s_ "cal") d) eqn:E; [exfalso; apply H1, contains_iff, E|reflexivity]).
  assert (C2 : contains (s_ ".y") d = false) by (destruct (contains (s_ ".y") d) eqn:E; [exfalso; apply H2, contains_iff, E|reflexivity]).
  unfold redmagic_runfile. cbv zeta.
  rewrite (replace_dir (s_ "cal")), (before_dir (s_ ".y")) by (try discriminate; try assumption; cbn; intuition discriminate).
  destruct (str_eqb (replace_all (s_ "cal") (s_ "run") b) b) eqn:E.
  - apply str_eqb_iff in E. rewrite E, (proj2 (str_eqb_iff _ _) eq_refl), <- app_assoc. reflexivity.
  - destruct (str_eqb _ (d ++ "/"%char :: b)) eqn:E'; [|reflexivity]. apply str_eqb_iff in E'. apply app_inv_head in E'.
    assert (E2 : replace_all (s_ "cal") (s_ "run") b = b) by (exact (f_equal (@tl _) E')). apply str_eqb_iff in E2. congruence.
Qed.
