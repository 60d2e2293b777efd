(** Lemmas about the files of a consolidation. *)
From Coq Require Import Ascii String ZArith Permutation Sorting.Sorted.
From Verif.Base Require Import Py PyLemmas.
From Verif.Model Require Import Names Galfile ConsFiles.
From Verif.Spec Require Import ConsFiles.
From Verif.Proofs Require Import Names RunAll.
From Coq Require Import Lia List. Import ListNotations.
Local Open Scope list_scope.

(** ** glob *)
Lemma glob_lit p q : forall s, glob (map Lit p ++ q) s = true <-> exists r, s = p ++ r /\ glob q r = true.
Proof.
  induction p as [|c p IH]; intros s; cbn [map app glob]; [split; [intros H; exists s; auto|intros (r & -> & H); exact H]|].
  destruct s as [|x s]; [split; [discriminate|intros (r & E & _); discriminate]|]. rewrite Bool.andb_true_iff, Ascii.eqb_eq, IH. split.
  - intros [-> (r & -> & H)]. exists r. auto.
  - intros (r & E & H). injection E as -> ->. split; [reflexivity|]. exists r. auto.
Qed.
Lemma glob_one n q : forall s, glob (repeat One n ++ q) s = true <-> exists f r, s = f ++ r /\ length f = n /\ glob q r = true.
Proof.
  induction n as [|n IH]; intros s; cbn [repeat app glob].
  - split; [intros H; exists [], s; auto|]. intros (f & r & -> & L & H). destruct f; [exact H|discriminate].
  - destruct s as [|x s]; [split; [discriminate|]; intros (f & r & E & L & _); destruct f; discriminate|]. rewrite IH. split.
    + intros (f & r & -> & L & H). exists (x :: f), r. cbn. auto.
    + intros (f & r & E & L & H). destruct f as [|y f]; [discriminate|]. injection E as -> ->. exists f, r. auto.
Qed.
Lemma glob_any q : forall s, glob (Any :: q) s = true <-> exists w r, s = w ++ r /\ glob q r = true.
Proof.
  induction s as [|x s IH].
  - cbn. rewrite Bool.orb_false_r. split; [intros H; exists [], []; auto|]. intros (w & r & E & H). symmetry in E. apply app_eq_nil in E as [-> ->]. exact H.
  - change (glob (Any :: q) (x :: s)) with (glob q (x :: s) || glob (Any :: q) s)%bool. rewrite Bool.orb_true_iff, IH. split.
    + intros [H|(w & r & -> & H)]; [exists [], (x :: s); auto|exists (x :: w), r; auto].
    + intros (w & r & E & H). destruct w as [|y w]; [left; cbn in E; rewrite E; exact H|right]. injection E as -> ->. exists w, r. auto.
Qed.
Lemma glob_end p : forall s, glob (map Lit p) s = true <-> s = p.
Proof.
  intros s. rewrite <- (app_nil_r (map Lit p)), glob_lit. split.
  - intros (r & -> & H). destruct r; [apply app_nil_r|discriminate].
  - intros ->. exists []. rewrite app_nil_r. auto.
Qed.
Lemma glob_form base typ name : glob (cat_pattern base typ) name = true <-> of_form base typ name.
Proof.
  unfold cat_pattern, of_form. rewrite glob_lit. split.
  - intros (r & -> & H). apply glob_any in H as (w & r2 & -> & H). apply glob_lit in H as (r3 & -> & H). apply glob_one in H as (f & r4 & -> & L & H). apply glob_end in H as ->.
    exists w, f. split; [rewrite <- !app_assoc; reflexivity|exact L].
  - intros (w & f & -> & L). eexists. split; [rewrite <- app_assoc; reflexivity|]. apply glob_any. eexists. eexists. split; [reflexivity|]. apply glob_lit. eexists. split; [reflexivity|].
    apply glob_one. eexists. eexists. split; [reflexivity|]. split; [exact L|]. apply glob_end. reflexivity.
Qed.

(** ** sorted *)
Lemma leb_refl a : str_leb a a = true.
Proof. induction a as [|x a IH]; cbn; [reflexivity|]. rewrite Nat.eqb_refl, IH. apply Bool.orb_true_r. Qed.
Lemma leb_total a : forall b, str_leb a b = false -> str_leb b a = true.
Proof.
  induction a as [|x a IH]; intros [|y b]; cbn [str_leb]; try discriminate; try reflexivity. intros H. apply Bool.orb_false_iff in H as [H1 H2]. apply Nat.ltb_ge in H1.
  destruct (Nat.eqb_spec (nat_of_ascii x) (nat_of_ascii y)) as [E|N]; [cbn in H2; rewrite E, Nat.eqb_refl, (IH _ H2); apply Bool.orb_true_r|].
  assert (L : nat_of_ascii y < nat_of_ascii x) by lia. apply Nat.ltb_lt in L. rewrite L. reflexivity.
Qed.
Lemma code_inj x y : nat_of_ascii x = nat_of_ascii y -> x = y.
Proof. intros H. rewrite <- (ascii_nat_embedding x), <- (ascii_nat_embedding y), H. reflexivity. Qed.
Lemma leb_antisym a : forall b, str_leb a b = true -> str_leb b a = true -> a = b.
Proof.
  induction a as [|x a IH]; intros [|y b]; cbn [str_leb]; try discriminate; try reflexivity. intros H1 H2.
  apply Bool.orb_true_iff in H1, H2. rewrite Bool.andb_true_iff, Nat.ltb_lt, Nat.eqb_eq in H1, H2.
  assert (E : nat_of_ascii x = nat_of_ascii y) by lia. destruct H1 as [H1|[_ H1]]; [lia|]. destruct H2 as [H2|[_ H2]]; [lia|]. rewrite (code_inj _ _ E), (IH _ H1 H2). reflexivity.
Qed.
Lemma leb_trans a : forall b c, str_leb a b = true -> str_leb b c = true -> str_leb a c = true.
Proof.
  induction a as [|x a IH]; intros [|y b] [|z c]; cbn [str_leb]; try discriminate; try reflexivity. intros H1 H2.
  apply Bool.orb_true_iff in H1, H2. rewrite Bool.andb_true_iff, Nat.ltb_lt, Nat.eqb_eq in H1, H2. apply Bool.orb_true_iff. rewrite Bool.andb_true_iff, Nat.ltb_lt, Nat.eqb_eq.
  destruct H1 as [H1|[E1 H1]], H2 as [H2|[E2 H2]]; try (left; lia). right. split; [congruence|]. eapply IH; eassumption.
Qed.
Definition le_str (a b : str) : Prop := str_leb a b = true.
Lemma insert_perm x l : Permutation (insert_str x l) (x :: l).
Proof. induction l as [|y l IH]; cbn; [reflexivity|]. destruct (str_leb x y); [reflexivity|]. rewrite IH. apply perm_swap. Qed.
Lemma sort_perm_str l : Permutation (sort_str l) l.
Proof. induction l as [|x l IH]; cbn; [reflexivity|]. rewrite insert_perm, IH. reflexivity. Qed.
Lemma insert_sorted x l : StronglySorted le_str l -> StronglySorted le_str (insert_str x l).
Proof.
  induction l as [|y l IH]; cbn; intros H; [constructor; constructor|]. inversion H as [|? ? S F]; subst. destruct (str_leb x y) eqn:E.
  - constructor; [exact H|]. constructor; [exact E|]. rewrite Forall_forall in *. intros z I. eapply leb_trans; [exact E|apply F, I].
  - constructor; [apply IH, S|]. rewrite Forall_forall in *. intros z I. apply (Permutation_in _ (insert_perm x l)) in I. destruct I as [<-|I]; [apply leb_total, E|apply F, I].
Qed.
Lemma sort_sorted_str l : StronglySorted le_str (sort_str l).
Proof. induction l as [|x l IH]; cbn; [constructor|]. apply insert_sorted, IH. Qed.
Lemma sorted_unique l : forall m, StronglySorted le_str l -> StronglySorted le_str m -> Permutation l m -> l = m.
Proof.
  induction l as [|x l IH]; intros m Sl Sm P; [apply Permutation_nil in P; subst; reflexivity|]. destruct m as [|y m]; [symmetry in P; apply Permutation_nil in P; discriminate|].
  inversion Sl as [|? ? S1 F1]; subst. inversion Sm as [|? ? S2 F2]; subst. rewrite Forall_forall in F1, F2.
  assert (E : x = y). { assert (Iy : In x (y :: m)) by (apply (Permutation_in _ P); left; reflexivity). assert (Ix : In y (x :: l)) by (apply (Permutation_in _ (Permutation_sym P)); left; reflexivity).
    destruct Iy as [->|Iy]; [reflexivity|]. destruct Ix as [->|Ix]; [reflexivity|]. apply leb_antisym; [apply F1, Ix|apply F2, Iy]. }
  subst y. f_equal. apply IH; try assumption. eapply Permutation_cons_inv. exact P.
Qed.
Lemma filter_perm_str (p : str -> bool) l m : Permutation l m -> Permutation (filter p l) (filter p m).
Proof. induction 1; cbn; [reflexivity| | |etransitivity; eassumption]; [destruct (p x); [constructor|]; assumption|destruct (p x), (p y); try reflexivity; apply perm_swap]. Qed.
Lemma found_perm path base typ names names' : Permutation names names' -> found path base typ names = found path base typ names'.
Proof.
  intros P. unfold found. apply sorted_unique; try apply sort_sorted_str. rewrite !sort_perm_str. apply Permutation_map, filter_perm_str, P.
Qed.
Lemma leb_app x a b : str_leb (x ++ a) (x ++ b) = str_leb a b.
Proof. induction x as [|c x IH]; cbn [app str_leb]; [reflexivity|]. rewrite Nat.ltb_irrefl, Nat.eqb_refl, IH. reflexivity. Qed.

(** ** the order of numbers of one width *)
Lemma digit_range c : is_digit c = true <-> 48 <= nat_of_ascii c <= 57.
Proof. unfold is_digit. rewrite Bool.andb_true_iff, !Nat.leb_le. reflexivity. Qed.
Lemma numeral_bound s : forallb is_digit s = true -> (0 <= parse s < 10 ^ Z.of_nat (length s))%Z.
Proof.
  rewrite parse_numeral. induction s as [|c s IH]; [cbn; lia|]. cbn [forallb]. rewrite Bool.andb_true_iff. intros [D H]. specialize (IH H). apply digit_range in D.
  pose proof (parse_numeral_gen s (digit_val c)) as G. pose proof (parse_numeral (c :: s)) as G2. unfold parse in G2. cbn [fold_left] in G2. replace (10 * 0 + digit_val c)%Z with (digit_val c) in G2 by lia. rewrite G in G2. rewrite <- G2.
  cbn [length]. rewrite Nat2Z.inj_succ, Z.pow_succ_r by lia. unfold digit_val. assert (0 < 10 ^ Z.of_nat (length s))%Z by (apply Z.pow_pos_nonneg; lia). nia.
Qed.
Lemma leb_numbers a : forall b r, forallb is_digit a = true -> forallb is_digit b = true -> length a = length b -> (str_leb (a ++ r) (b ++ r) = true <-> (parse a <= parse b)%Z).
Proof.
  assert (Cons : forall c s, parse (c :: s) = (digit_val c * 10 ^ Z.of_nat (length s) + parse s)%Z).
  { intros c s. unfold parse at 1. cbn [fold_left]. replace (10 * 0 + digit_val c)%Z with (digit_val c) by lia. rewrite parse_numeral_gen, parse_numeral. reflexivity. }
  induction a as [|x a IH]; intros [|y b] r Da Db L; try discriminate; [cbn [app]; rewrite leb_refl; split; [cbn; lia|reflexivity]|]. cbn [forallb] in Da, Db. apply Bool.andb_true_iff in Da as [Dx Da], Db as [Dy Db].
  injection L as L. cbn [app str_leb]. rewrite Bool.orb_true_iff, Bool.andb_true_iff, Nat.ltb_lt, Nat.eqb_eq, (IH b r Da Db L), !Cons, L. apply digit_range in Dx, Dy. pose proof (numeral_bound a Da). pose proof (numeral_bound b Db). rewrite L in *.
  unfold digit_val. set (t := (10 ^ Z.of_nat (length b))%Z) in *. set (i := nat_of_ascii x) in *. set (j := nat_of_ascii y) in *. split.
  - intros [H1|[H1 H2]]; [|rewrite H1; lia]. assert (Z.of_nat (i - 48) + 1 <= Z.of_nat (j - 48))%Z by lia. nia.
  - intros H1. destruct (Nat.lt_trichotomy i j) as [H2|[H2|H2]]; [left; exact H2|right; split; [exact H2|rewrite H2 in H1; lia]|exfalso]. assert (Z.of_nat (j - 48) + 1 <= Z.of_nat (i - 48))%Z by lia. nia.
Qed.

(** ** the regular expression *)
Lemma all_digits_b s : forallb is_digit s = true <-> all_digits s.
Proof. rewrite forallb_forall. unfold all_digits. split; intros H c I; apply digit_range, H, I. Qed.
Lemma span_spec s : let '(d, r) := span_digits s in s = d ++ r /\ forallb is_digit d = true /\ match r with [] => True | c :: _ => is_digit c = false end.
Proof.
  induction s as [|c s IH]; cbn; [auto|]. destruct (is_digit c) eqn:E; [|cbn; rewrite E; auto]. destruct (span_digits s) as [d r]. destruct IH as (-> & D & R). cbn. rewrite E. auto.
Qed.
Lemma span_app d c r : forallb is_digit d = true -> is_digit c = false -> span_digits (d ++ c :: r) = (d, c :: r).
Proof. induction d as [|x d IH]; cbn; intros D N; [rewrite N; reflexivity|]. apply Bool.andb_true_iff in D as [-> D]. rewrite (IH D N). reflexivity. Qed.
Lemma bar_digit : is_digit "_"%char = false. Proof. reflexivity. Qed.
Lemma after_bar_iff s a b : after_bar s = Some (a, b) <-> a <> [] /\ forallb is_digit a = true /\ length b = 5 /\ forallb is_digit b = true /\ exists v, s = a ++ "_"%char :: b ++ "_"%char :: v.
Proof.
  split.
  - unfold after_bar. pose proof (span_spec s) as P. destruct (span_digits s) as [[|d0 d] [|c r]]; try discriminate. destruct P as (-> & D & _).
    destruct (Ascii.eqb_spec c "_"%char) as [->|]; [|discriminate]. destruct (take_digits 5 r) as [e|] eqn:T; [|discriminate]. apply take_digits_inv in T as (L & De & r' & ->).
    rewrite skipn_app, skipn_all2, L by lia. replace (5 - 5) with 0 by lia. cbn [skipn app]. destruct r' as [|x r']; [discriminate|]. destruct (Ascii.eqb_spec x "_"%char) as [->|]; [|discriminate]. intros E. injection E as <- <-.
    split; [discriminate|]. split; [exact D|]. split; [exact L|]. split; [exact De|]. exists r'. reflexivity.
  - intros (N & D & L & De & v & ->). unfold after_bar. rewrite (span_app a "_"%char _ D bar_digit). destruct a as [|d0 d]; [contradiction|]. rewrite Ascii.eqb_refl.
    rewrite (take_digits_app 5 b _ L De). rewrite skipn_app, skipn_all2, L by lia. replace (5 - 5) with 0 by lia. cbn [skipn app]. rewrite Ascii.eqb_refl. reflexivity.
Qed.
Lemma search_tile_sound s a b : search_tile s = Some (a, b) -> exists u v, s = u ++ s_ "_" ++ a ++ s_ "_" ++ b ++ s_ "_" ++ v /\ a <> [] /\ all_digits a /\ length b = 5 /\ all_digits b.
Proof.
  induction s as [|c s IH]; [discriminate|]. cbn [search_tile]. destruct (Ascii.eqb_spec c "_"%char) as [->|N].
  - destruct (after_bar s) as [[a' b']|] eqn:E.
    + intros H. injection H as -> ->. apply after_bar_iff in E as (N & D & L & De & v & ->). exists [], v. rewrite <- !all_digits_b. cbn. auto.
    + intros H. destruct (IH H) as (u & v & -> & R). exists ("_"%char :: u), v. auto.
  - intros H. destruct (IH H) as (u & v & -> & R). exists (c :: u), v. auto.
Qed.
Lemma search_tile_none s : search_tile s = None <-> ~ reads_as_tile s.
Proof.
  split.
  - intros H (u & a & b & v & E & N & D & L & De). revert s E H. induction u as [|c u IH]; intros s E H.
    + subst s. cbn [app s_ list_ascii_of_string search_tile] in H. rewrite Ascii.eqb_refl in H. assert (X : after_bar (a ++ "_"%char :: b ++ "_"%char :: v) = Some (a, b)). { apply after_bar_iff. apply all_digits_b in D, De. repeat split; try assumption. exists v. reflexivity. }
      cbn [app s_ list_ascii_of_string] in H. rewrite X in H. discriminate.
    + subst s. cbn [app search_tile] in H. destruct (if Ascii.eqb c "_"%char then _ else None); [discriminate|]. eapply IH; [reflexivity|exact H].
  - intros H. destruct (search_tile s) as [[a b]|] eqn:E; [|reflexivity]. exfalso. apply H. apply search_tile_sound in E as (u & v & E). exists u, a, b, v. exact E.
Qed.
(** cut at the first bar *)
Lemma cut_bar a : forall b x y, forallb is_digit a = true -> a ++ "_"%char :: x = b ++ "_"%char :: y -> (exists z, b = a ++ "_"%char :: z /\ x = z ++ "_"%char :: y) \/ (a = b /\ x = y).
Proof.
  induction a as [|c a IH]; intros b x y D E.
  - destruct b as [|d b]; cbn in E; [right; injection E as E; auto|]. injection E as <- ->. left. exists b. auto.
  - cbn [forallb] in D. apply Bool.andb_true_iff in D as [Dc D]. destruct b as [|d b]; cbn in E; [injection E as -> _; discriminate|]. injection E as <- E.
    destruct (IH b x y D E) as [(z & -> & ->)|[-> ->]]; [left; exists z; auto|right; auto].
Qed.
Lemma search_tile_app s t : search_tile s <> None -> search_tile (s ++ t) = search_tile s.
Proof.
  induction s as [|c s IH]; [intros H; exfalso; apply H; reflexivity|]. cbn [app search_tile]. destruct (Ascii.eqb c "_"%char); [|intros H; apply IH, H]. destruct (after_bar s) as [[a b]|] eqn:E.
  - intros _. apply after_bar_iff in E as (N & D & L & De & v & ->). assert (X : after_bar ((a ++ "_"%char :: b ++ "_"%char :: v) ++ t) = Some (a, b)) by (apply after_bar_iff; repeat split; try assumption; exists (v ++ t); rewrite <- !app_assoc; cbn; rewrite <- app_assoc; reflexivity).
    rewrite X. reflexivity.
  - intros H. rewrite (IH H). destruct (after_bar (s ++ t)) as [[a b]|] eqn:E2; [|reflexivity]. exfalso.
    destruct (search_tile s) as [[a' b']|] eqn:S; [|congruence]. apply search_tile_sound in S as (u & v' & Es & N' & D' & L' & De'). apply all_digits_b in D', De'. cbn [s_ list_ascii_of_string app] in Es.
    apply after_bar_iff in E2 as (N & D & L & De & v & E2). assert (X : forall z, s = a ++ "_"%char :: b ++ "_"%char :: z -> False).
    { intros z Z. assert (after_bar s = Some (a, b)) by (apply after_bar_iff; repeat split; try assumption; exists z; exact Z). congruence. }
    rewrite Es in E2. repeat (rewrite <- app_assoc in E2; cbn [app] in E2). symmetry in E2. apply (cut_bar a u) in E2; [|exact D]. destruct E2 as [(z & -> & E2)|[-> E2]].
    + apply (cut_bar b z) in E2; [|exact De]. destruct E2 as [(z' & -> & _)|[-> _]].
      * eapply X. rewrite Es. repeat (rewrite <- app_assoc; cbn [app]). reflexivity.
      * eapply X. rewrite Es. repeat (rewrite <- app_assoc; cbn [app]). reflexivity.
    + apply (split_at_bar b a') in E2; [|exact De|exact D']. destruct E2 as [-> _]. eapply X. rewrite Es. reflexivity.
Qed.
Lemma search_tile_here P n p r : ~ reads_as_tile (P ++ s_ "_") -> n <> [] -> forallb is_digit n = true -> length n <> 5 -> length p = 5 -> forallb is_digit p = true ->
  search_tile (P ++ "_"%char :: n ++ "_"%char :: p ++ "_"%char :: r) = Some (n, p).
Proof.
  intros H N D L Lp Dp. induction P as [|c P IH].
  - cbn [app search_tile]. rewrite Ascii.eqb_refl. assert (X : after_bar (n ++ "_"%char :: p ++ "_"%char :: r) = Some (n, p)) by (apply after_bar_iff; repeat split; try assumption; exists r; reflexivity). rewrite X. reflexivity.
  - cbn [app search_tile]. rewrite IH. 2: { intros (u & a & b & v & E & R). apply H. exists (c :: u), a, b, v. change ((c :: P) ++ s_ "_") with (c :: (P ++ s_ "_")). rewrite E. auto. }
    destruct (Ascii.eqb_spec c "_"%char) as [->|]; [|reflexivity]. destruct (after_bar (P ++ _)) as [[a b]|] eqn:E; [|reflexivity]. exfalso.
    apply after_bar_iff in E as (Na & Da & Lb & Db & v & E). symmetry in E. apply (cut_bar a P) in E; [|exact Da]. destruct E as [(z & -> & E)|[-> E]].
    + apply (cut_bar b z) in E; [|exact Db]. destruct E as [(z' & -> & E)|[-> E]].
      * apply H. exists [], a, b, (z' ++ s_ "_"). rewrite <- !all_digits_b. split; [|auto]. cbn. rewrite <- !app_assoc. cbn. rewrite <- !app_assoc. reflexivity.
      * apply H. exists [], a, z, []. rewrite <- !all_digits_b. split; [|auto]. cbn. rewrite <- !app_assoc. reflexivity.
    + apply (split_at_bar b n) in E; [|exact Db|exact D]. destruct E as [-> _]. contradiction.
Qed.

(** ** names of tiles *)
Lemma fmt5 p : (0 <= p < 100000)%Z -> length (fmt 5 p) = 5.
Proof. intros H. unfold fmt. rewrite digits_len, Nat.max_l; [reflexivity|]. apply (ndigits_le 4). change (10 ^ Z.of_nat 5)%Z with 100000%Z. exact H. Qed.
Lemma fmt5_long p : (100000 <= p)%Z -> 6 <= length (fmt 5 p).
Proof.
  intros H. unfold fmt. rewrite digits_len. pose proof (ndigits_ge 5 (Z.to_nat p) p) as G. change (10 ^ Z.of_nat 5)%Z with 100000%Z in G.
  assert (5 <= Z.to_nat p) by (apply Nat2Z.inj_le; rewrite Z2Nat.id; lia). specialize (G H0 H). lia.
Qed.
Lemma fmt_some w p : fmt w p <> [].
Proof. unfold fmt. intros H. apply (f_equal (@length ascii)) in H. rewrite digits_len in H. cbn in H. assert (1 <= ndigits (Z.to_nat p) p) by (destruct (Z.to_nat p); cbn; [lia|]; destruct (p <? 10)%Z; lia). lia. Qed.
Lemma fmt1_five n : (0 <= n)%Z -> length (fmt 1 n) = 5 -> (10000 <= n < 100000)%Z.
Proof.
  intros P H. pose proof (numeral_bound (fmt 1 n) (fmt_digits 1 n P)) as B. rewrite fmt_val, H in B by exact P. change (10 ^ Z.of_nat 5)%Z with 100000%Z in B. split; [|lia].
  destruct (Z_lt_le_dec n 10000) as [L|]; [|lia]. exfalso. unfold fmt in H. rewrite digits_len in H. assert (ndigits (Z.to_nat n) n <= 4) by (apply (ndigits_le 3); change (10 ^ Z.of_nat 4)%Z with 10000%Z; lia). lia.
Qed.
Lemma tile_search path base typ n p : ~ reads_as_tile (path ++ s_ "/" ++ base ++ s_ "_") -> (0 <= n)%Z -> ~ (10000 <= n < 100000)%Z -> (0 <= p < 100000)%Z ->
  search_tile (tile_path path base typ n p) = Some (fmt 1 n, fmt 5 p).
Proof.
  intros H Pn Ln Pp. unfold tile_path, tile_name. replace (path ++ s_ "/" ++ base ++ s_ "_" ++ fmt 1 n ++ s_ "_" ++ fmt 5 p ++ s_ "_" ++ typ ++ s_ "_catalog.fit")
    with ((path ++ s_ "/" ++ base) ++ "_"%char :: fmt 1 n ++ "_"%char :: fmt 5 p ++ "_"%char :: (typ ++ s_ "_catalog.fit")) by (rewrite <- !app_assoc; reflexivity).
  apply search_tile_here.
  - rewrite <- !app_assoc. exact H.
  - apply fmt_some.
  - apply fmt_digits, Pn.
  - intros E. apply Ln, fmt1_five; assumption.
  - apply fmt5, Pp.
  - apply fmt_digits, Pp.
Qed.
Lemma tile_form base typ n p : (0 <= p < 100000)%Z -> of_form base typ (tile_name base typ n p).
Proof. intros H. exists (fmt 1 n), (fmt 5 p). split; [reflexivity|apply fmt5, H]. Qed.
Lemma tile_leb path base typ n p q : (0 <= p < 100000)%Z -> (0 <= q < 100000)%Z -> (le_str (tile_path path base typ n p) (tile_path path base typ n q) <-> (p <= q)%Z).
Proof.
  intros Hp Hq. unfold le_str, tile_path, tile_name. rewrite !leb_app. rewrite leb_numbers by (rewrite ?fmt5 by assumption; try apply fmt_digits; lia). rewrite !fmt_val by lia. reflexivity.
Qed.
Lemma filter_none {A} (f : A -> bool) l : (forall x, In x l -> f x = false) -> filter f l = [].
Proof. induction l as [|x l IH]; cbn; intros H; [reflexivity|]. rewrite (H x (or_introl eq_refl)). apply IH. auto. Qed.
Lemma filter_full {A} (f : A -> bool) l : (forall x, In x l -> f x = true) -> filter f l = l.
Proof. induction l as [|x l IH]; cbn; intros H; [reflexivity|]. rewrite (H x (or_introl eq_refl)), IH; auto. Qed.
Lemma found_tiles path base typ n ps other names : (forall p, In p ps -> (0 <= p < 100000)%Z) -> (forall x, In x other -> ~ of_form base typ x) ->
  Permutation names (map (tile_name base typ n) ps ++ other) ->
  exists qs, Permutation ps qs /\ found path base typ names = map (tile_path path base typ n) qs /\ StronglySorted Z.le qs.
Proof.
  intros Hp Ho P. rewrite (found_perm _ _ _ _ _ P). unfold found. rewrite filter_app, (filter_none _ other), app_nil_r.
  2: { intros x I. apply Bool.not_true_is_false. rewrite glob_form. apply Ho, I. }
  rewrite filter_full. 2: { intros x I. apply in_map_iff in I as (p & <- & I). apply glob_form, tile_form, Hp, I. }
  rewrite map_map, (map_ext _ (tile_path path base typ n)) by reflexivity.
  pose proof (sort_perm_str (map (tile_path path base typ n) ps)) as SP. pose proof (sort_sorted_str (map (tile_path path base typ n) ps)) as SS.
  apply Permutation_map_inv in SP as (qs & E & PQ). exists qs. split; [exact PQ|]. rewrite E. split; [reflexivity|]. rewrite E in SS.
  assert (B : forall p, In p qs -> (0 <= p < 100000)%Z) by (intros p I; apply Hp, (Permutation_in _ (Permutation_sym PQ)), I). clear -SS B.
  induction qs as [|q qs IH]; [constructor|]. cbn [map] in SS. inversion SS as [|? ? S F]; subst. constructor; [apply IH; [exact S|intros; apply B; right; assumption]|].
  rewrite Forall_forall in *. intros r I. apply (tile_leb path base typ n q r); [apply B; left; reflexivity|apply B; right; exact I|]. apply F, in_map, I.
Qed.
Lemma mapM_pixels path base typ n qs : (forall p, In p qs -> search_tile (tile_path path base typ n p) = Some (fmt 1 n, fmt 5 p) /\ (0 <= p)%Z) ->
  mapM pixel_of (map (tile_path path base typ n) qs) = Ok (map (fun p => (tile_path path base typ n p, p)) qs).
Proof.
  induction qs as [|q qs IH]; cbn [map mapM]; intros H; [reflexivity|]. destruct (H q (or_introl eq_refl)) as [S P]. unfold pixel_of at 1. rewrite S, fmt_val by exact P. cbn [bind]. rewrite IH by (intros; apply H; right; assumption). reflexivity.
Qed.
Lemma tiles_ok path base typ n ps other names : ~ reads_as_tile (path ++ s_ "/" ++ base ++ s_ "_") -> (0 <= n)%Z -> ~ (10000 <= n < 100000)%Z ->
  (forall p, In p ps -> (0 <= p < 100000)%Z) -> ps <> [] -> (forall x, In x other -> ~ of_form base typ x) -> Permutation names (map (tile_name base typ n) ps ++ other) ->
  exists qs, Permutation ps qs /\ StronglySorted Z.le qs /\ tiles path base typ names = Ok (n, map (fun p => (tile_path path base typ n p, p)) qs).
Proof.
  intros H Pn Ln Hp N Ho P. destruct (found_tiles path base typ n ps other names Hp Ho P) as (qs & PQ & E & SS). exists qs. split; [exact PQ|]. split; [exact SS|].
  assert (B : forall p, In p qs -> search_tile (tile_path path base typ n p) = Some (fmt 1 n, fmt 5 p) /\ (0 <= p)%Z).
  { intros p I. assert (X : (0 <= p < 100000)%Z) by (apply Hp, (Permutation_in _ (Permutation_sym PQ)), I). split; [apply tile_search; assumption|lia]. }
  unfold tiles. rewrite E. destruct qs as [|q qs]; [apply Permutation_sym, Permutation_nil in PQ; contradiction|]. cbn [map]. destruct (B q (or_introl eq_refl)) as [S _]. rewrite S.
  change (tile_path path base typ n q :: map (tile_path path base typ n) qs) with (map (tile_path path base typ n) (q :: qs)). rewrite (mapM_pixels _ _ _ _ _ B). cbn [bind]. rewrite fmt_val by exact Pn. reflexivity.
Qed.
