(** Proofs for C152 and C153. *)
From Coq Require Import Reals Lra.
From Verif.Base Require Import Py PyLemmas.
From Verif.Model Require Import WcenFit.
From Verif.Spec Require Import WcenFit.
From Coq Require Import Lia List. Import ListNotations.
Local Open Scope R_scope.

Lemma sqrt2pi_pos : 0 < sqrt (2 * PI).
Proof. apply sqrt_lt_R0. pose proof PI_RGT_0. lra. Qed.
Lemma density_pos x m s : 0 < s -> 0 < density x m s.
Proof. intros H. unfold density. apply Rdiv_lt_0_compat; [apply exp_pos|]. apply Rmult_lt_0_compat; [exact H|apply sqrt2pi_pos]. Qed.
Lemma normal_density x m s : s <> 0 -> normal x m s = Some (density x m s).
Proof.
  intros H. unfold normal, density. destruct (Req_EM_T s 0); [contradiction|]. f_equal. pose proof sqrt2pi_pos.
  replace (- (1 / 2) * (x - m) ^ 2 / s ^ 2) with (- (((x - m) / s) ^ 2 / 2)) by (field; exact H). field. split; lra.
Qed.
Lemma density_neg x m s : s <> 0 -> density x m (- s) = - density x m s.
Proof.
  intros H. unfold density. replace ((x - m) / - s) with (- ((x - m) / s)) by (field; exact H). replace ((- ((x - m) / s)) ^ 2) with (((x - m) / s) ^ 2) by ring. pose proof sqrt2pi_pos. field. split; lra.
Qed.
Lemma ln_density x m s : 0 < s -> ln (density x m s) = - (((x - m) / s) ^ 2 / 2) - ln s - ln (sqrt (2 * PI)).
Proof.
  intros H. unfold density, Rdiv at 1. pose proof sqrt2pi_pos. assert (P : 0 < s * sqrt (2 * PI)) by (apply Rmult_lt_0_compat; assumption).
  rewrite ln_mult by (try apply exp_pos; apply Rinv_0_lt_compat, P). rewrite ln_exp, ln_Rinv by exact P. rewrite ln_mult by assumption. ring.
Qed.

Lemma osum_some l xs : Forall2 (fun o x => o = Some x) l xs -> osum l = Some (total xs).
Proof. intros F. induction F as [|o x l xs -> F IH]; [reflexivity|]. cbn. rewrite IH. reflexivity. Qed.
Lemma osum_map {A} (f : A -> option R) (g : A -> R) l : (forall x, In x l -> f x = Some (g x)) -> osum (map f l) = Some (total (map g l)).
Proof. intros H. apply osum_some. induction l as [|a l IH]; cbn [map]; constructor; [apply H; left; reflexivity|]. apply IH. intros x I. apply H. right. exact I. Qed.
Lemma osum_inv {A} (f : A -> option R) l t : osum (map f l) = Some t -> forall x, In x l -> exists v, f x = Some v.
Proof.
  revert t. induction l as [|a l IH]; intros t H x; [intros []|]. cbn in H. destruct (f a) as [v|] eqn:E; [|discriminate]. destruct (osum (map f l)) as [u|] eqn:U; [|discriminate].
  intros [<-|I]; [exists v; exact E|]. apply (IH u eq_refl x I).
Qed.
Lemma osum_le {A} (f g : A -> option R) l t : (forall x, In x l -> forall a, f x = Some a -> exists b, g x = Some b /\ b <= a) -> osum (map f l) = Some t ->
  exists u, osum (map g l) = Some u /\ u <= t.
Proof.
  revert t. induction l as [|x l IH]; intros t H E; cbn in *; [exists 0; split; [reflexivity|]; assert (t = 0) by congruence; lra|].
  destruct (f x) as [a|] eqn:F; [|discriminate]. destruct (osum (map f l)) as [s|]; [|discriminate].
  destruct (H x (or_introl eq_refl) a F) as (b & Gb & Lb). destruct (IH s (fun y I => H y (or_intror I)) eq_refl) as (u & U & Lu).
  rewrite Gb, U. exists (b + u). split; [reflexivity|]. assert (t = a + s) by congruence. lra.
Qed.
Lemma neglog_pos v : 0 < v -> neglog (Some v) = Some (- ln v).
Proof. intros H. cbn. destruct (Rlt_dec 0 v); [reflexivity|contradiction]. Qed.
Lemma neglog_mono v w a : v <= w -> neglog (Some v) = Some a -> exists b, neglog (Some w) = Some b /\ b <= a.
Proof.
  intros H E. cbn in *. destruct (Rlt_dec 0 v) as [P|]; [|discriminate]. destruct (Rlt_dec 0 w); [|lra]. exists (- ln w). split; [reflexivity|]. assert (a = - ln v) by congruence.
  assert (ln v <= ln w) by (destruct H as [H| ->]; [left; apply ln_increasing; assumption|right; reflexivity]). lra.
Qed.

(** ** sums *)
Lemma total_ext {A} (f g : A -> R) l : (forall x, In x l -> f x = g x) -> total (map f l) = total (map g l).
Proof. intros H. induction l as [|a l IH]; [reflexivity|]. cbn. rewrite (H a (or_introl eq_refl)). f_equal. apply IH. intros; apply H; right; assumption. Qed.
Lemma total_add {A} (f g : A -> R) l : total (map (fun x => f x + g x) l) = total (map f l) + total (map g l).
Proof. induction l as [|a l IH]; cbn; [lra|]. unfold total in *. rewrite IH. lra. Qed.
Lemma total_scale {A} k (f : A -> R) l : total (map (fun x => k * f x) l) = k * total (map f l).
Proof. induction l as [|a l IH]; cbn; [lra|]. unfold total in *. rewrite IH. lra. Qed.
Lemma total_const {A} k (l : list A) : total (map (fun _ => k) l) = INR (length l) * k.
Proof. induction l as [|a l IH]; cbn [map length]; [cbn; lra|]. rewrite S_INR. cbn [total fold_right]. fold (total (map (fun _ : A => k) l)). rewrite IH. lra. Qed.
Lemma total_nonneg {A} (f : A -> R) l : (forall x, In x l -> 0 <= f x) -> 0 <= total (map f l).
Proof. induction l as [|a l IH]; intros H; cbn; [lra|]. specialize (IH (fun x I => H x (or_intror I))). pose proof (H a (or_introl eq_refl)). unfold total in *. lra. Qed.
Lemma total_pos {A} (f : A -> R) l : l <> [] -> (forall x, In x l -> 0 < f x) -> 0 < total (map f l).
Proof.
  destruct l as [|a l]; [contradiction|]. intros _ H. cbn. pose proof (H a (or_introl eq_refl)). pose proof (total_nonneg f l (fun x I => Rlt_le _ _ (H x (or_intror I)))). unfold total in *. lra.
Qed.

(** ** the foreground *)
Definition pts (cs : list fgcl) : list (R * R) := map (fun c => (ln (fg_w c), fg_l c)) cs.
Definition Qm (l : list (R * R)) (m : R) : R := total (map (fun p => ((fst p - m) / snd p) ^ 2) l).
Definition scales (l : list (R * R)) : Prop := forall p, In p l -> 0 < snd p.
(** the quadratic form around its minimum *)
Lemma Qm_shift l m : l <> [] -> scales l -> Qm l m = Qm l (wmean l) + (m - wmean l) ^ 2 * total (map (fun p => / snd p ^ 2) l).
Proof.
  intros N S. assert (P : 0 < total (map (fun p => / snd p ^ 2) l)). { apply total_pos; [exact N|]. intros p I. apply Rinv_0_lt_compat, pow_lt, S, I. }
  assert (X : forall c, Qm l c = total (map (fun p => fst p ^ 2 * / snd p ^ 2) l) - 2 * c * total (map (fun p => fst p / snd p ^ 2) l) + c ^ 2 * total (map (fun p => / snd p ^ 2) l)).
  { intros c. unfold Qm. transitivity (total (map (fun p => fst p ^ 2 * / snd p ^ 2 + ((-2 * c) * (fst p / snd p ^ 2) + c ^ 2 * / snd p ^ 2)) l)).
    - apply total_ext. intros p I. pose proof (S p I). field. lra.
    - rewrite (total_add (fun p => fst p ^ 2 * / snd p ^ 2) (fun p => (-2 * c) * (fst p / snd p ^ 2) + c ^ 2 * / snd p ^ 2)), (total_add (fun p => (-2 * c) * (fst p / snd p ^ 2)) (fun p => c ^ 2 * / snd p ^ 2)), !total_scale. ring. }
  rewrite (X m), (X (wmean l)). unfold wmean. field. lra.
Qed.
Lemma Qm_min l m : l <> [] -> scales l -> Qm l (wmean l) <= Qm l m.
Proof.
  intros N S. rewrite (Qm_shift l m N S). pose proof (pow2_ge_0 (m - wmean l)). assert (P : 0 < total (map (fun p => / snd p ^ 2) l)). { apply total_pos; [exact N|]. intros p I. apply Rinv_0_lt_compat, pow_lt, S, I. }
  assert (0 <= (m - wmean l) ^ 2 * total (map (fun p => / snd p ^ 2) l)) by (apply Rmult_le_pos; lra). lra.
Qed.
Definition fgval (l : list (R * R)) (m s : R) : R :=
  Qm l m / (2 * s ^ 2) + INR (length l) * ln s + total (map (fun p => ln (snd p)) l) + INR (length l) * ln (sqrt (2 * PI)).
Lemma fg_terms m s cs : 0 < s -> scales (pts cs) -> total (map (fun c => - ln (density (ln (fg_w c)) m (s * fg_l c))) cs) = fgval (pts cs) m s.
Proof.
  intros Hs S. unfold fgval, Qm. rewrite <- (total_const (ln s)), <- (total_const (ln (sqrt (2 * PI)))). unfold Rdiv at 1. rewrite Rmult_comm. rewrite <- total_scale, <- !total_add. unfold pts. rewrite map_map. apply total_ext. intros c I.
  assert (L : 0 < fg_l c) by (apply (S (ln (fg_w c), fg_l c)); apply in_map_iff; exists c; auto).
  rewrite ln_density by (apply Rmult_lt_0_compat; assumption). rewrite ln_mult by assumption. cbn [fst snd]. replace ((ln (fg_w c) - m) / (s * fg_l c)) with ((ln (fg_w c) - m) / fg_l c / s) by (field; lra). field. split; lra.
Qed.
Lemma fg_cost m s cs : 0 < s -> scales (pts cs) -> cost_fg m s cs = Some (fgval (pts cs) m s).
Proof.
  intros Hs S. unfold cost_fg. rewrite (osum_map _ (fun c => - ln (density (ln (fg_w c)) m (s * fg_l c)))).
  - cbn [penalty]. destruct (Rlt_dec s 0); [lra|]. rewrite fg_terms by assumption. reflexivity.
  - intros c I. assert (L : 0 < fg_l c) by (apply (S (ln (fg_w c), fg_l c)); apply in_map_iff; exists c; auto).
    assert (P : 0 < s * fg_l c) by (apply Rmult_lt_0_compat; assumption). rewrite normal_density by lra. apply neglog_pos, density_pos, P.
Qed.
Lemma fg_none m s cs : s <= 0 -> cs <> [] -> scales (pts cs) -> cost_fg m s cs = None.
Proof.
  intros Hs N S. unfold cost_fg. destruct cs as [|c cs]; [contradiction|]. cbn [map osum].
  assert (L : 0 < fg_l c) by (apply (S (ln (fg_w c), fg_l c)); left; reflexivity).
  assert (E : neglog (normal (ln (fg_w c)) m (s * fg_l c)) = None).
  { destruct (Req_dec s 0) as [-> |Ns]; [unfold normal; rewrite Rmult_0_l; destruct (Req_EM_T 0 0); [reflexivity|contradiction]|].
    assert (X : s * fg_l c <> 0) by (intros X; apply Rmult_integral in X; lra). rewrite normal_density by exact X. cbn. destruct (Rlt_dec 0 _) as [P|]; [|reflexivity]. exfalso.
    assert (Y : 0 < - (s * fg_l c)) by (rewrite Ropp_mult_distr_l; apply Rmult_lt_0_compat; lra). pose proof (density_pos (ln (fg_w c)) m _ Y) as D. rewrite density_neg in D by exact X. lra. }
  rewrite E. reflexivity.
Qed.
Lemma ln_le_1 x : 0 < x -> ln x <= x - 1.
Proof. intros H. pose proof (exp_ineq1_le (ln x)) as E. rewrite exp_ln in E by exact H. lra. Qed.
(** the best width for a given sum of squares *)
Lemma width_min n q s : 0 < n -> 0 < q -> 0 < s -> q / (2 * (sqrt (q / n)) ^ 2) + n * ln (sqrt (q / n)) <= q / (2 * s ^ 2) + n * ln s.
Proof.
  intros Hn Hq Hs. assert (D : 0 < q / n) by (apply Rdiv_lt_0_compat; assumption). assert (W : 0 < sqrt (q / n)) by (apply sqrt_lt_R0, D).
  rewrite pow2_sqrt by lra. set (w := sqrt (q / n)) in *. assert (Ew : w ^ 2 = q / n) by (apply pow2_sqrt; lra).
  assert (Eq : q = n * w ^ 2) by (rewrite Ew; field; lra). clearbody w. subst q. replace (n * w ^ 2 / (2 * (n * w ^ 2 / n))) with (n / 2) by (field; split; lra).
  assert (P : 0 < w / s) by (apply Rdiv_lt_0_compat; assumption). pose proof (ln_le_1 ((w / s) ^ 2) (pow_lt _ 2 P)) as L.
  assert (E2 : ln ((w / s) ^ 2) = 2 * (ln w - ln s)). { unfold pow. rewrite Rmult_1_r, ln_mult by assumption. unfold Rdiv. rewrite ln_mult by (try apply Rinv_0_lt_compat; assumption). rewrite ln_Rinv by exact Hs. ring. }
  rewrite E2 in L. replace (n * w ^ 2 / (2 * s ^ 2)) with (n / 2 * (w / s) ^ 2) by (field; lra).
  assert (M : n / 2 * (2 * (ln w - ln s)) <= n / 2 * ((w / s) ^ 2 - 1)) by (apply Rmult_le_compat_l; lra). lra.
Qed.
Lemma wvar_Qm l : l <> [] -> Qm l (wmean l) = INR (length l) * wvar l.
Proof. intros N. unfold wvar, Qm. field. intros X. apply (INR_eq _ 0) in X. destruct l; [contradiction|discriminate X]. Qed.
Lemma len_pos {A} (l : list A) : l <> [] -> 0 < INR (length l).
Proof. intros N. apply lt_0_INR. destruct l; [contradiction|cbn; lia]. Qed.
