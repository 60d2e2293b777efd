(** C143: the area corrected by random points. *)
From Coq Require Import QArith.
From Verif.Base Require Import Py PyLemmas Sort.
From Verif.Model Require Import Randoms RandArea Util.
From Verif.Spec Require Import RandArea.
From Verif.Proofs Require Import Vlim RandArea.
From Coq Require Import Lqa Lia List. Import ListNotations.
Local Open Scope Q_scope.

(** The fit is given one point per inner edge of the redshift bins; its value is the fraction of the random points below
    that edge that pass the cuts, a number between 0 and 1, if there are any. *)
Theorem C143_fractions asort c rows zbins : argsort_spec asort -> exists pts, fit_points asort c rows zbins = Ok pts /\ length pts = (length zbins - 2)%nat /\
  forall k b, (S (S k) < length zbins)%nat -> nth_error zbins (S k) = Some b -> (0 < below b rows)%nat ->
    exists x y g, nth_error pts k = Some (x, y) /\ passing c b rows g /\ y * inject_Z (Z.of_nat (below b rows)) == inject_Z (Z.of_nat g) /\ 0 <= y <= 1.
Proof.
  intros HA. destruct (points_spec asort c rows zbins HA) as (pts & E & L & P). exists pts. split; [exact E|]. split; [exact L|].
  intros k b Lk Eb Nb. destruct (nth_error zbins k) as [a|] eqn:Ea; [|apply nth_error_None in Ea; lia]. specialize (P k a b Lk Ea Eb).
  set (g := length (filter (zlt b) (filter (area_cut c) rows))) in *. exists ((a + b) / 2), (ratio g (below b rows)), g. split; [exact P|]. split; [apply passing_filter; reflexivity|]. split.
  - unfold ratio, Qnat. destruct (Nat.eqb_spec (below b rows) 0); [lia|]. field. unfold Qeq. cbn. lia.
  - apply ratio_bounds. unfold g. rewrite filter_comm, below_filter. apply filter_le.
Qed.
Print Assumptions C143_fractions.
(** Whatever the fit: every redshift of the table keeps its place, and its area is not negative and never more than before. *)
Theorem C143_never_more asort fit c rows z0 z1 bs astr : argsort_spec asort -> exists out, corrected asort fit c rows z0 z1 bs astr = Ok out /\
  Forall2 (fun za o => fst o = fst za /\ (0 <= snd za -> 0 <= snd o <= snd za)) astr out.
Proof.
  intros HA. unfold corrected. destruct (points_spec asort c rows (arange z0 z1 bs) HA) as (pts & -> & _). cbn [bind]. eexists. split; [reflexivity|].
  induction astr as [|[z a] t IH]; constructor; [|exact IH]. cbn. split; [reflexivity|]. intros Ha. pose proof (clip01 (fit pts z)) as [A B]. split; [apply Qmult_le_0_compat; assumption|]. setoid_replace a with (1 * a) at 2 by ring. apply Qmult_le_compat_r; assumption.
Qed.
Print Assumptions C143_never_more.
(** A fit of the value 1 everywhere (no point is lost) leaves the areas as they are. *)
Theorem C143_no_loss asort fit c rows z0 z1 bs astr out : argsort_spec asort -> (forall pts z, fit pts z == 1) -> corrected asort fit c rows z0 z1 bs astr = Ok out ->
  Forall2 (fun za o => fst o = fst za /\ snd o == snd za) astr out.
Proof.
  intros HA Hf H. unfold corrected in H. destruct (points_spec asort c rows (arange z0 z1 bs) HA) as (pts & E & _). rewrite E in H. cbn [bind] in H. assert (X : out = map (fun za => (fst za, clipQ 0 1 (fit pts (fst za)) * snd za)) astr) by congruence. subst out. clear -Hf.
  induction astr as [|[z a] t IH]; constructor; [|exact IH]. cbn. split; [reflexivity|]. setoid_replace (clipQ 0 1 (fit pts z)) with 1; [ring|]. specialize (Hf pts z). unfold clipQ, Qmin2, Qmax2. destruct (Qle_bool (fit pts z) 0) eqn:A; [apply Qle_bool_iff in A; exfalso; lra|]. destruct (Qle_bool (fit pts z) 1) eqn:B; [exact Hf|]. reflexivity.
Qed.
Print Assumptions C143_no_loss.
(** If every random point passes, the fitted values are 1 at every inner edge above the lowest random point.  (Missing: the
    edges below it, next theorem.) *)
Theorem C143_all_pass_partial asort c rows zbins pts k b : argsort_spec asort -> fit_points asort c rows zbins = Ok pts -> (forall p, In p rows -> passes c p) ->
  (S (S k) < length zbins)%nat -> nth_error zbins (S k) = Some b -> (0 < below b rows)%nat -> exists x y, nth_error pts k = Some (x, y) /\ y == 1.
Proof.
  intros HA E A Lk Eb Nb. destruct (points_spec asort c rows zbins HA) as (pts' & E' & _ & P). assert (pts' = pts) by congruence. subst pts'.
  destruct (nth_error zbins k) as [a|] eqn:Ea; [|apply nth_error_None in Ea; lia]. specialize (P k a b Lk Ea Eb). eexists; eexists. split; [exact P|].
  assert (F : filter (area_cut c) rows = rows). { clear -A. induction rows as [|p t IH]; [reflexivity|]. cbn. rewrite (proj2 (area_passes c p)) by (apply A; left; reflexivity). f_equal. apply IH. intros; apply A; right; assumption. }
  rewrite F, <- below_filter. unfold ratio, Qnat. destruct (Nat.eqb_spec (below b rows) 0); [lia|]. field. unfold Qeq. cbn. lia.
Qed.
Print Assumptions C143_all_pass_partial.
(** Finding: at an edge below the lowest random point nothing is known, yet the fit is told that the whole area is lost. *)
Theorem C143_nothing_known_refuted asort c rows zbins pts k b : argsort_spec asort -> fit_points asort c rows zbins = Ok pts ->
  (S (S k) < length zbins)%nat -> nth_error zbins (S k) = Some b -> (forall p, In p rows -> b <= p_z p) -> exists x, nth_error pts k = Some (x, 0).
Proof.
  intros HA E Lk Eb N. destruct (points_spec asort c rows zbins HA) as (pts' & E' & _ & P). assert (pts' = pts) by congruence. subst pts'.
  destruct (nth_error zbins k) as [a|] eqn:Ea; [|apply nth_error_None in Ea; lia]. specialize (P k a b Lk Ea Eb). eexists. rewrite P. f_equal. f_equal.
  assert (Z : below b rows = 0%nat). { clear -N. induction rows as [|p t IH]; [reflexivity|]. cbn. destruct (Qlt_le_dec (p_z p) b) as [L|L]; [exfalso; specialize (N p (or_introl eq_refl)); lra|]. apply IH. intros; apply N; right; assumption. }
  rewrite Z. reflexivity.
Qed.
Print Assumptions C143_nothing_known_refuted.
(** Finding: the fraction of the points below an edge is fitted at the middle of the bin that ends there, half a bin too low. *)
Theorem C143_half_bin_refuted asort c rows zbins pts k a b : argsort_spec asort -> fit_points asort c rows zbins = Ok pts ->
  (S (S k) < length zbins)%nat -> nth_error zbins k = Some a -> nth_error zbins (S k) = Some b -> a < b -> exists x y, nth_error pts k = Some (x, y) /\ b - x == (b - a) / 2 /\ x < b.
Proof.
  intros HA E Lk Ea Eb L. destruct (points_spec asort c rows zbins HA) as (pts' & E' & _ & P). assert (pts' = pts) by congruence. subst pts'. specialize (P k a b Lk Ea Eb). eexists; eexists. split; [exact P|].
  split; [field|]. apply Qlt_shift_div_r; lra.
Qed.
Print Assumptions C143_half_bin_refuted.
(** four points, three bins' edges at 0.1, 0.2, 0.3, 0.4 *)
Definition C143_conf : wconf := mkWconf false 20 0 1000 (2#10) (1#10) (5#10).
Definition C143_rows : list rpoint := [mkRpoint 1 (25#100) 30 1 0; mkRpoint 2 (15#100) 30 1 (1#2); mkRpoint 3 (12#100) 40 1 0; mkRpoint 4 (35#100) 50 1 0].
Example C143_example : exists y1 y2, fit_points argsort C143_conf C143_rows [1#10; 2#10; 3#10; 4#10] = Ok [(((1#10) + (2#10)) / 2, y1); (((2#10) + (3#10)) / 2, y2)] /\ y1 == 1#2 /\ y2 == 2#3.
Proof. eexists; eexists. split; [vm_compute; reflexivity|]. split; vm_compute; reflexivity. Qed.

(** The file holds exactly the points with their weights (C35) unless a single point is used. *)
Theorem C35_file_partial c cat rand rows : all_use c cat rand = Ok rows -> length rows <> 1%nat -> weight_file c cat rand = weight_randoms c cat rand.
Proof. intros E N. unfold weight_file, weight_randoms. rewrite E. cbn [bind]. destruct (Nat.eqb_spec (length rows) 1); [congruence|reflexivity]. Qed.
Print Assumptions C35_file_partial.
(** Finding: a single point that fails the cuts is written all the same, with weight 0. *)
Theorem C35_single_refuted c cat rand p : all_use c cat rand = Ok [p] -> point_cut c p = false -> weight_file c cat rand = Ok [(p, 0)] /\ weight_randoms c cat rand = Ok [].
Proof. intros E F. unfold weight_file, weight_randoms. rewrite E. cbn. rewrite Z.eqb_refl. cbn. rewrite F. split; reflexivity. Qed.
Print Assumptions C35_single_refuted.
Example C35_single_example : weight_file C143_conf [mkRclus 1 30 1] [mkRpoint 1 (2#10) 30 1 (1#2)] = Ok [(mkRpoint 1 (2#10) 30 1 (1#2), 0)].
Proof. vm_compute. reflexivity. Qed.
