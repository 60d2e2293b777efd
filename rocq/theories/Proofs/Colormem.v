From Coq Require Import QArith Sorting.Sorted Permutation.
From Verif.Base Require Import Py PyLemmas Sort Fn.
From Verif.Model Require Import Runner Colormem.
From Verif.Model Require Galfile.
From Verif.Spec Require Import Runner Colormem.
From Verif.Proofs Require Import Runner.
From Verif.Proofs Require Galfile.
From Coq Require Import Lqa Lia List.
Import ListNotations.
Local Open Scope nat_scope.
Local Open Scope list_scope.

Lemma interval_le inner z : interval inner z <= length inner.
Proof. unfold interval. induction inner as [|a l IH]; cbn; [lia|]. destruct (Qlt_bool a z); cbn; lia. Qed.
Lemma interval_spec inner z i b : StronglySorted Qle inner -> nth_error inner i = Some b -> (i < interval inner z <-> (b < z)%Q).
Proof.
  intros H; revert i b. unfold interval. induction H as [|a l H IH F]; intros i b E; [destruct i; discriminate|].
  cbn [filter]. destruct (Qlt_bool a z) eqn:A.
  - destruct i as [|i]; cbn [nth_error length] in *.
    + injection E as <-. apply Qlt_bool_iff in A. split; [intros _; exact A|lia].
    + rewrite <- (IH i b E). lia.
  - assert (N : filter (fun b => Qlt_bool b z) l = []).
    { clear - F A. induction F as [|x l Hx F IH]; [reflexivity|]. cbn. replace (Qlt_bool x z) with false; [exact IH|].
      symmetry. apply Qlt_bool_false. apply Qlt_bool_false in A. Lqa.lra. }
    rewrite N. cbn [length]. split; [lia|]. intros B. exfalso. apply Qlt_bool_false in A.
    destruct i as [|i]; cbn in E; [injection E as <-; Lqa.lra|]. rewrite Forall_forall in F. specialize (F b (nth_error_In _ _ E)). Lqa.lra.
Qed.

Section Bounds.
Variables (zr : Q * Q) (inner : list Q) (z : Q).
Hypothesis Hs : StronglySorted Qle inner.
Hypothesis Hlo : (fst zr - (11 # 1000) < z)%Q.
Hypothesis Hhi : (z < snd zr + (11 # 1000))%Q.
Lemma bound_low m a : nth_error (zbounds zr inner) m = Some a -> m <= length inner -> ((a < z)%Q <-> m <= interval inner z).
Proof.
  unfold zbounds. destruct m as [|m]; cbn [nth_error]; [intros [= <-] _; split; [lia|intros _; exact Hlo]|].
  intros E Hm. rewrite nth_error_app1 in E by lia. rewrite <- (interval_spec inner z m a Hs E). lia.
Qed.
Lemma bound_high m b : nth_error (zbounds zr inner) (S m) = Some b -> m <= length inner -> ((z <= b)%Q <-> interval inner z <= m).
Proof.
  unfold zbounds. cbn [nth_error]. intros E Hm. destruct (Nat.eq_dec m (length inner)) as [->|N].
  - rewrite nth_error_app2, Nat.sub_diag in E by lia. injection E as <-. split; [intros _; apply interval_le|intros _; Lqa.lra].
  - rewrite nth_error_app1 in E by lia. pose proof (interval_spec inner z m b Hs E) as P. split.
    + intros H. destruct (Nat.le_gt_cases (interval inner z) m) as [K|K]; [exact K|]. apply P in K. exfalso. Lqa.lra.
    + intros H. apply Qnot_lt_le. intros K. apply P in K. lia.
Qed.
Lemma bounds_length : length (zbounds zr inner) = S (S (length inner)).
Proof. unfold zbounds. cbn. rewrite app_length. cbn. lia. Qed.
(** an interval of the strict comparison *)
Lemma strict_interval m a b : m <= length inner -> nth_error (zbounds zr inner) m = Some a -> nth_error (zbounds zr inner) (S m) = Some b ->
  ((a < z)%Q /\ (z < b)%Q <-> m = interval inner z /\ ~ on_boundary inner z).
Proof.
  intros Hm A B. rewrite (bound_low m a A Hm). pose proof (bound_high m b B Hm) as HB. split.
  - intros [H1 H2]. assert (m = interval inner z) by (apply Nat.le_antisymm; [exact H1|apply HB; Lqa.lra]). split; [exact H|].
    intros (c & Hc & E). apply In_nth_error in Hc. destruct Hc as [i Hi].
    pose proof (interval_spec inner z i c Hs Hi) as P. assert (i >= interval inner z) by (destruct (Nat.lt_ge_cases i (interval inner z)) as [K|K]; [apply P in K; exfalso; Lqa.lra|exact K]).
    (* b is at most c *)
    assert (L : (b <= c)%Q).
    { unfold zbounds in B. cbn [nth_error] in B. assert (Hil : i < length inner) by (apply nth_error_Some; congruence).
      rewrite nth_error_app1 in B by lia. destruct (Nat.eq_dec m i) as [->|N]; [assert (b = c) by congruence; subst; Lqa.lra|].
      apply (SS_nth Qle inner m i b c Hs); [lia|exact B|exact Hi]. }
    Lqa.lra.
  - intros [-> N]. split; [lia|]. assert (L : (z <= b)%Q) by (apply HB; lia). destruct (Qlt_le_dec z b) as [K|K]; [exact K|]. exfalso.
    unfold zbounds in B. cbn [nth_error] in B. destruct (Nat.eq_dec (interval inner z) (length inner)) as [E|E].
    + rewrite E, nth_error_app2, Nat.sub_diag in B by lia. injection B as <-. Lqa.lra.
    + rewrite nth_error_app1 in B by (pose proof (interval_le inner z); lia). apply N. exists b. split; [apply (nth_error_In _ _ B)|Lqa.lra].
Qed.
End Bounds.

Lemma found_none l z : forall s, find_interval l z s = None -> forall i a b, nth_error l i = Some a -> nth_error l (S i) = Some b -> ~ ((a < z)%Q /\ (z <= b)%Q).
Proof.
  induction l as [|x l IH]; intros s H i a b A B; [destruct i; discriminate|]. destruct l as [|y l]; [destruct i as [|[|i]]; discriminate|].
  change (find_interval (x :: y :: l) z s) with (if Qlt_bool x z && Qle_bool z y then Some s else find_interval (y :: l) z (S s)) in H.
  destruct (Qlt_bool x z && Qle_bool z y) eqn:E; [discriminate|]. destruct i as [|i].
  - cbn in A, B. injection A as <-. injection B as <-. intros [P Q]. apply Qlt_bool_iff in P. apply Qle_bool_iff in Q. rewrite P, Q in E. discriminate.
  - apply (IH (S s) H i a b A B).
Qed.
Lemma found_some l z : forall s m, find_interval l z s = Some m -> exists i a b, m = s + i /\ nth_error l i = Some a /\ nth_error l (S i) = Some b /\ (a < z)%Q /\ (z <= b)%Q.
Proof.
  induction l as [|x l IH]; intros s m H; [discriminate|]. destruct l as [|y l]; [discriminate|].
  change (find_interval (x :: y :: l) z s) with (if Qlt_bool x z && Qle_bool z y then Some s else find_interval (y :: l) z (S s)) in H.
  destruct (Qlt_bool x z && Qle_bool z y) eqn:E.
  - injection H as <-. apply andb_true_iff in E. destruct E as [P R]. exists 0, x, y. repeat split; [lia|apply Qlt_bool_iff, P|apply Qle_bool_iff, R].
  - destruct (IH (S s) m H) as (i & a & b & -> & A & B & P & R). exists (S i), a, b. repeat split; auto. lia.
Qed.

(** the marks *)
Section Marks.
Variables (red : Z -> gal -> bool) (bounds : list Q) (modes : list Z).
Definition hit (m : nat) (g : gal) : bool :=
  match nth_error bounds m, nth_error bounds (S m), nth_error modes m with
  | Some a, Some b, Some j => Qlt_bool a (g_z g) && Qlt_bool (g_z g) b && red j g | _, _, _ => false end.
Lemma marks_ok gals : forall ms f, (forall m, In m ms -> S m < length bounds /\ m < length modes) ->
  mark_modes red bounds modes gals (map f gals) ms = Ok (map (fun g => existsb (fun m => hit m g) (rev ms) || f g) gals).
Proof.
  induction ms as [|m ms IH]; intros f H; cbn [mark_modes].
  - cbn. reflexivity.
  - unfold mark_mode. destruct (H m (or_introl eq_refl)) as [H1 H2].
    destruct (nth_error bounds m) as [a|] eqn:A; [|apply nth_error_None in A; lia].
    destruct (nth_error bounds (S m)) as [b|] eqn:B; [|apply nth_error_None in B; lia].
    destruct (nth_error modes m) as [j|] eqn:J; [|apply nth_error_None in J; lia]. cbn [bind].
    replace (map _ (combine gals (map f gals))) with (map (fun g => hit m g || f g) gals).
    2:{ clear - A B J. induction gals as [|g l IHg]; [reflexivity|]. cbn [map combine fst snd]. f_equal; [|exact IHg]. unfold hit.
        repeat match goal with H : nth_error _ _ = _ |- _ => rewrite H end. destruct (_ && _ && _); reflexivity. }
    rewrite IH by (intros k Hk; apply H; right; exact Hk). f_equal. apply map_ext. intros g. cbn [rev]. rewrite existsb_app. cbn [existsb].
    destruct (existsb _ (rev ms)), (hit m g), (f g); reflexivity.
Qed.
End Marks.
Lemma filter_combine {A} (f : A -> bool) l : map fst (filter snd (combine l (map f l))) = filter f l.
Proof. induction l as [|x l IH]; [reflexivity|]. cbn. destruct (f x); cbn; rewrite IH; reflexivity. Qed.
Lemma filter_filter {A} (f g : A -> bool) l : filter f (filter g l) = filter (fun x => g x && f x) l.
Proof. induction l as [|x l IH]; [reflexivity|]. cbn. destruct (g x); cbn; [destruct (f x); rewrite IH; reflexivity|exact IH]. Qed.

Lemma select_eq red zr lim inner modes gals : length modes = S (length inner) ->
  select red zr lim inner modes gals = Ok (filter (fun g => in_range zr lim g && existsb (fun m => hit red (zbounds zr inner) modes m g) (seq 0 (length modes))) gals).
Proof.
  intros L. unfold select. rewrite (marks_ok red (zbounds zr inner) modes _ _ (fun _ => false)).
  2:{ intros m Hm. apply in_seq in Hm. rewrite bounds_length. lia. }
  cbn [bind]. f_equal. rewrite filter_combine, filter_filter. apply filter_ext. intros g. destruct (in_range zr lim g); cbn [andb]; [|reflexivity].
  rewrite orb_false_r. apply eq_true_iff_eq. rewrite !existsb_exists. split; intros (m & Hm & E); exists m; (split; [|exact E]); [apply in_rev, Hm|apply in_rev; rewrite rev_involutive; exact Hm].
Qed.

(** the passes *)
Lemma step_alone mc p pg c : fst (fst (step (mkFL false false mc) p pg c)) = mkCR (cl_id c) (alone p c).
Proof.
  unfold step, alone, handed. destruct (cl_nb c) as [|n l] eqn:E; [reflexivity|]. cbn [fl_perc]. destruct (oc_bad _); reflexivity.
Qed.
Lemma first_rows mc p cs : rs_cat (first_pass mc p cs) = map (fun c => mkCR (cl_id c) (alone p c)) cs.
Proof.
  unfold first_pass. induction cs as [|c cs IH] using rev_ind; [reflexivity|]. rewrite run_loop_snoc. unfold run_step.
  pose proof (step_alone mc p (rs_pgal (run_loop (mkFL false false mc) p cs)) c) as S1.
  destruct (step _ _ _ _) as [[r pg] m]. cbn [fst rs_cat] in *. rewrite map_app, IH, S1. reflexivity.
Qed.
Lemma post_eq keep s cat ms : post keep s = Ok (cat, ms) ->
  cat = filter keep (rs_cat s) /\ exists l, rs_mem s = Some l /\ ms = filter (fun m => Galfile.is_in (mr_id m) (map cr_id cat)) l.
Proof.
  unfold post. destruct (rs_mem s) as [l|]; [|discriminate]. intros H.
  destruct (eu_match _ _) as [m|] eqn:Em; [|discriminate]. cbn [bind] in H.
  destruct (Galfile.eu_match_filter _ _ _ _ Em) as [Hs Hi]. rewrite (np_take_ok _ _ Hi) in H. cbn [bind] in H. injection H as <- <-.
  split; [reflexivity|]. exists l. split; [reflexivity|]. exact Hs.
Qed.
