(** C183: the spectroscopic redshifts of the galaxies of the redMaGiC calibration. *)
From Coq Require Import Reals Lra.
From Verif.Base Require Import Py PyLemmas.
From Verif.Model Require Import BkgGen Redmagic SpecMatch.
From Verif.Spec Require Import SpecMatch.
From Verif.Proofs Require Import BkgGen Radii SpecMatch.
From Coq Require Import Lia List.
Import ListNotations.
Local Open Scope R_scope.

(** Every galaxy keeps its place.  Its redshift is 0, or that of a precise spectrum of it. *)
Theorem C183_zspec_partial : forall dist rad near e specs gals, closest dist rad near ->
  List.length (cal_zspec false near e specs gals) = List.length gals /\
  forall i z, nth_error (cal_zspec false near e specs gals) i = Some z ->
    z = 0 \/ exists s, In s specs /\ s_zerr s < e /\ spectrum_of dist rad gals i s /\ z = s_z s.
Proof.
  intros dist rad near e specs gals C. cbn [cal_zspec]. split; [apply zs_len|]. intros i z E.
  assert (L : (i < List.length gals)%nat) by (rewrite <- (zs_len near gals e specs); apply nth_error_Some; congruence).
  destruct (zs_cases near gals e specs i L) as [[H _]|(a & s & b & -> & S1 & H & V & _)].
  - left. congruence.
  - right. exists s. split; [apply in_or_app; right; left; reflexivity|]. split; [exact S1|]. split; [|congruence].
    apply (hit_of dist rad near C gals s i H).
Qed.
Print Assumptions C183_zspec_partial.

(** No spectrum is lost: a precise spectrum whose only closest galaxy is this one gives it a redshift, its own unless a later
    precise spectrum in the file is also one of this galaxy. *)
Theorem C183_found : forall dist rad near e gals a s b i, closest dist rad near ->
  s_zerr s < e -> only_of dist rad gals i s ->
  (forall t, In t b -> s_zerr t < e -> ~ spectrum_of dist rad gals i t) ->
  nth_error (cal_zspec false near e (a ++ s :: b) gals) i = Some (s_z s).
Proof.
  intros dist rad near e gals a s b i C S1 O N. cbn [cal_zspec]. pose proof (only_hit dist rad near C gals s i O) as H.
  unfold matched_zspec. rewrite filter_app. cbn [filter]. rewrite (proj2 (Rltb_iff _ _) S1).
  change (fun zs s => _) with (stp (hit near gals)).
  apply fold_last; [rewrite repeat_length; exact (hit_lt dist rad near C gals s i H)|exact H|].
  intros t I E. apply filter_In in I. destruct I as [I T]. apply Rltb_iff in T.
  apply (N t I T). exact (hit_of dist rad near C gals t i E).
Qed.
Print Assumptions C183_found.

(** A galaxy without a precise spectrum has 0. *)
Theorem C183_none : forall dist rad near e specs gals i, closest dist rad near -> (i < List.length gals)%nat ->
  (forall s, In s specs -> s_zerr s < e -> ~ spectrum_of dist rad gals i s) ->
  nth_error (cal_zspec false near e specs gals) i = Some 0.
Proof.
  intros dist rad near e specs gals i C L N. cbn [cal_zspec].
  destruct (zs_cases near gals e specs i L) as [[H _]|(a & s & b & -> & S1 & H & V & _)]; [exact H|]. exfalso.
  apply (N s); [apply in_or_app; right; left; reflexivity|exact S1|]. exact (hit_of dist rad near C gals s i H).
Qed.
Print Assumptions C183_none.

(** Finding: of several precise spectra of one galaxy the last of the file counts, however much worse it is: it may be further from
    the galaxy and have the larger error. *)
Theorem C183_best_refuted : forall dist rad near e gals good bad i, closest dist rad near ->
  s_zerr good < e -> only_of dist rad gals i good -> s_zerr bad < e -> only_of dist rad gals i bad ->
  nth_error (cal_zspec false near e [good; bad] gals) i = Some (s_z bad).
Proof.
  intros dist rad near e gals good bad i C _ _ S1 O.
  apply (C183_found dist rad near e gals [good] bad [] i C S1 O). intros t [].
Qed.
Print Assumptions C183_best_refuted.

(** Finding: the sample that calibrates and the catalogue selected with its result match in opposite directions.  A galaxy with a precise spectrum within reach, to which another galaxy is closer, has no redshift (0) in
    the calibration; the selection gives it that spectrum's redshift. *)
Theorem C183_directions_refuted : forall dist rad near snear e g h s gi hi, closest dist rad near ->
  closest (fun t p => dist p (at_spec t)) rad snear ->
  s_zerr s < e -> s_zerr s < 1/1000 ->
  dist (at_gal h) (at_spec s) < dist (at_gal g) (at_spec s) -> dist (at_gal g) (at_spec s) < rad ->
  nth_error [g; h] gi = Some g -> nth_error [g; h] hi = Some h -> gi <> hi ->
  nth_error (cal_zspec false near e [s] [g; h]) gi = Some 0 /\
  nth_error (cal_zspec false near e [s] [g; h]) hi = Some (s_z s) /\
  zspec_cols (Match [s] snear) [g; h] [gi; hi] [g_ra g; g_ra h] [g_dec g; g_dec h] = Ok [s_z s; s_z s].
Proof.
  intros dist rad near snear e g h s gi hi C SC S1 S2 D1 D2 G H Ne.
  assert (Ng : g <> h) by (intros ->; lra).
  assert (OH : only_of dist rad [g; h] hi s).
  { exists h. split; [exact H|]. split; [lra|]. intros j k J Nj.
    destruct hi as [|[|hi]]; cbn in H; try (destruct hi; discriminate); [congruence|].
    destruct j as [|[|j]]; cbn in J; try (destruct j; discriminate); [|lia]. injection J as <-. exact D1. }
  split; [|split].
  - apply (C183_none dist rad near e [s] [g; h] gi C).
    + apply nth_error_Some. congruence.
    + intros t [<-|[]] _ (k & K & _ & M). rewrite G in K. injection K as <-. specialize (M h (or_intror (or_introl eq_refl))). lra.
  - apply (C183_found dist rad near e [g; h] [] s [] hi C S1 OH). intros t [].
  - unfold zspec_cols. cbn [filter]. rewrite (proj2 (Rltb_iff _ _) S2). cbn [combine Galfile.mapM fst snd].
    assert (F : forall p, dist p (at_spec s) < rad -> snear [s] (fst p) (snd p) = Some 0%nat).
    { intros p P. specialize (SC [s] (fst p) (snd p)). destruct (snear [s] (fst p) (snd p)) as [[|k]|]; [reflexivity| |].
      - destruct SC as (q & Q & _). destruct k; discriminate.
      - specialize (SC s (or_introl eq_refl)). destruct p. cbn [fst snd] in SC. lra. }
    rewrite (F (at_gal g) D2 : snear [s] (g_ra g) (g_dec g) = _).
    assert (D3 : dist (at_gal h) (at_spec s) < rad) by lra.
    rewrite (F (at_gal h) D3 : snear [s] (g_ra h) (g_dec h) = _). reflexivity.
Qed.
Print Assumptions C183_directions_refuted.
(** Finding: a galaxy with no spectrum at all has redshift 0 in the calibration sample and -1 in a selected catalogue. *)
Theorem C183_marks_refuted : forall dist rad near snear e specs gals i g, closest dist rad near ->
  closest (fun t p => dist p (at_spec t)) rad snear -> nth_error gals i = Some g ->
  (forall s, In s specs -> rad <= dist (at_gal g) (at_spec s)) ->
  nth_error (cal_zspec false near e specs gals) i = Some 0 /\
  zspec_cols (Match specs snear) gals [i] [g_ra g] [g_dec g] = Ok [-1].
Proof.
  intros dist rad near snear e specs gals i g C SC G F. split.
  - apply (C183_none dist rad near e specs gals i C); [apply nth_error_Some; congruence|].
    intros s I _ (k & K & D & _). rewrite G in K. injection K as <-. specialize (F s I). lra.
  - unfold zspec_cols. set (use := filter _ specs). cbn [combine Galfile.mapM fst snd].
    specialize (SC use (g_ra g) (g_dec g)). destruct (snear use (g_ra g) (g_dec g)) as [k|]; [|reflexivity].
    exfalso. destruct SC as (q & Q & D & _). apply nth_error_In in Q. apply filter_In in Q. specialize (F q (proj1 Q)).
    unfold at_gal in F. lra.
Qed.
Print Assumptions C183_marks_refuted.

(** with mock truth every galaxy has its true redshift, whatever the spectra *)
Theorem C183_truth : forall near e specs gals i g, nth_error gals i = Some g ->
  nth_error (cal_zspec true near e specs gals) i = Some (g_ztrue g).
Proof. intros near e specs gals i g G. cbn [cal_zspec]. rewrite nth_error_map, G. reflexivity. Qed.
Print Assumptions C183_truth.

(** ** a matcher, and galaxies and spectra on a line *)
Definition d1 (a b : R * R) : R := Rabs (fst a - fst b).
Fixpoint best (l : list (R * R)) (x y : R) : option (nat * R) :=
  match l with
  | [] => None
  | p :: t => match best t x y with
              | Some (i, d) => if Rltb d (d1 p (x, y)) then Some (S i, d) else Some (O, d1 p (x, y))
              | None => Some (O, d1 p (x, y))
              end
  end.
Definition finder (rad : R) (l : list (R * R)) (x y : R) : option nat :=
  match best l x y with Some (i, d) => if Rltb d rad then Some i else None | None => None end.
Lemma best_spec l x y : match best l x y with
  | Some (i, d) => exists p, nth_error l i = Some p /\ d = d1 p (x, y) /\ forall q, In q l -> d <= d1 q (x, y)
  | None => l = [] end.
Proof.
  induction l as [|p t IH]; [reflexivity|]. cbn [best]. destruct (best t x y) as [[i d]|].
  - destruct IH as (q & Q & Ed & M). destruct (Rltb d (d1 p (x, y))) eqn:E.
    + apply Rltb_iff in E. exists q. repeat split; [exact Q|exact Ed|]. intros r [<-|I]; [lra|apply M, I].
    + assert (E2 : d1 p (x, y) <= d) by (apply Rnot_lt_le; intros X; apply Rltb_iff in X; congruence).
      exists p. repeat split. intros r [<-|I]; [lra|]. specialize (M r I). lra.
  - subst t. exists p. repeat split. intros r [<-|[]]. lra.
Qed.
Lemma finder_closest rad : closest d1 rad (finder rad).
Proof.
  intros l x y. unfold finder. pose proof (best_spec l x y) as H. destruct (best l x y) as [[i d]|].
  - destruct H as (p & P & -> & M). destruct (Rltb (d1 p (x, y)) rad) eqn:E.
    + apply Rltb_iff in E. exists p. repeat split; assumption.
    + intros q I. specialize (M q I). apply Rnot_lt_le. intros X. assert (d1 p (x, y) < rad) by lra. apply Rltb_iff in H. congruence.
  - subst l. intros q [].
Qed.
Definition ex_g (ra : R) : gal := {| g_pay := 0; g_ra := ra; g_dec := 0; g_refmag := 0; g_zunc := 0; g_zunc_e := 0; g_chisq := 0;
                g_samp := []; g_ztrue := 0; g_zspec := 0 |}.
Definition ex_s (ra z : R) : spectrum := {| s_ra := ra; s_dec := 0; s_z := z; s_zerr := 0 |}.
(** a matcher exists, and two galaxies with two spectra: both of the first galaxy, one each, or none *)
Example C183_ex : closest d1 3 (finder 3) /\
  only_of d1 3 [ex_g 0; ex_g 10] 0 (ex_s 1 (1/2)) /\ only_of d1 3 [ex_g 0; ex_g 10] 0 (ex_s 2 (1/3)) /\
  (forall s, In s [ex_s 1 (1/2)] -> 3 <= d1 (at_gal (ex_g 10)) (at_spec s)).
Proof.
  split; [apply finder_closest|].
  assert (O : forall x z, 0 <= x < 3 -> only_of d1 3 [ex_g 0; ex_g 10] 0 (ex_s x z)).
  { intros x z X. exists (ex_g 0). split; [reflexivity|]. unfold d1, at_gal, at_spec. cbn.
    rewrite (Rabs_left1 (0 - x)) by lra. split; [lra|]. intros [|[|j]] h H N; cbn in H; [congruence| |destruct j; discriminate].
    injection H as <-. cbn. rewrite (Rabs_pos_eq (10 - x)) by lra. lra. }
  split; [apply O; lra|]. split; [apply O; lra|]. intros s [<-|[]]. unfold d1, at_gal, at_spec. cbn.
  rewrite (Rabs_pos_eq (10 - 1)) by lra. lra.
Qed.
