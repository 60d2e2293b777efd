(** C50: the redMaGiC selection and its output files. *)
From Coq Require Import String Sorting.Sorted Reals Lra Lia.
From Verif.Base Require Import Py PyLemmas.
From Verif.Model Require Import BkgGen Depth Redmagic.
From Verif.Spec Require Import Redmagic.
From Verif.Proofs Require Import BkgGen Solver Depth Redmagic.
Local Open Scope R_scope.

(** a known mode returns exactly the galaxies that pass its cuts, each in a row of its own, in order *)
Theorem C50_exact mstar src modes name m gals : source_ok src -> 0 < m_etamin m ->
  find (fun nm => String.eqb (fst nm) name) modes = Some (name, m) ->
  exists out gd, select_redmagic mstar src modes name gals = Ok (out, gd) /\ selection_of mstar src m gals out gd.
Proof. intros Hs He Hm. unfold select_redmagic. rewrite Hm. apply select_ok; assumption. Qed.
Print Assumptions C50_exact.

(** an unknown one is refused *)
Theorem C50_unknown mstar src modes name gals : ~ In name (map fst modes) ->
  select_redmagic mstar src modes name gals = Err RuntimeError.
Proof.
  intros H. unfold select_redmagic. destruct (find _ modes) as [[n m]|] eqn:E; [|reflexivity].
  apply find_some in E. destruct E as [Hin E]. apply String.eqb_eq in E. cbn in E. subst n. exfalso. apply H.
  apply in_map_iff. exists (name, m). split; [reflexivity|exact Hin].
Qed.
Print Assumptions C50_unknown.

(** every selected row is above the luminosity cut at its own redshift and below the volume limit at
    its own position *)
Theorem C50_rows mstar src m gals out gd : source_ok src -> 0 < m_etamin m -> select_mode mstar src m gals = Ok (out, gd) ->
  forall r, In r out -> m_etamin m < r_lum r /\ r_chisq r < m_maxchi m /\ r_z r < zmax_at m (r_ra r) (r_dec r).
Proof.
  intros Hs He H r Hr. destruct (select_ok mstar src m gals Hs He) as (out' & gd' & E & (_ & HL & Hin & Hrow)).
  rewrite E in H. injection H as -> ->. apply In_nth_error in Hr. destruct Hr as [k Hk].
  destruct (nth_error gd k) as [i|] eqn:Ei.
  2: { apply nth_error_None in Ei. assert (nth_error out k <> None) by congruence. apply nth_error_Some in H. lia. }
  destruct (Hrow k i Ei) as (g & r' & Hg & Hr' & (_ & Ra & Rd & _ & Rc & Rz & Rl & _) & _). assert (r' = r) by congruence. subst r'.
  assert (Hsel : selected mstar m g).
  { assert (Hi : In i gd) by (apply nth_error_In in Ei; exact Ei). apply Hin in Hi. destruct Hi as (g' & Hg' & S'). congruence. }
  destruct Hsel as ((C1 & C2) & L & V & _). rewrite Rl, Rc, Rz, Ra, Rd. repeat split; [exact L|exact C1|].
  unfold in_volume in V. unfold zmax_at. destruct (Rltb 90 (Rabs (g_dec g))) eqn:Ed.
  - apply Rltb_iff in Ed. rewrite Rmax_left by lra. destruct V as [V|[V _]]; lra.
  - destruct V as [V|[_ V]]; [eapply Rlt_le_trans; [exact V|apply Rmax_l]|eapply Rlt_le_trans; [exact V|apply Rmax_r]].
Qed.
Print Assumptions C50_rows.

(** the range is cut on the redshift before its correction: the redshift written may be anywhere *)
Definition wide : mode := {| m_z0 := 1/5; m_z1 := 3/5; m_zcush := 0; m_buf := 0; m_lcush := 0; m_maxchi := 10; m_etamin := 1;
   m_cmax := fun _ => 10; m_run := true; m_apply := false; m_bias := fun _ => 3/10; m_eratio := fun _ => 1; m_vlim := fun _ _ => 1 |}.
Definition agal : gal := {| g_pay := 7; g_ra := 0; g_dec := 0; g_refmag := 17; g_zunc := 2/5; g_zunc_e := 1/50; g_chisq := 1;
   g_samp := [2/5]; g_ztrue := 0; g_zspec := 0 |}.
Lemma agal_selected : selected (fun _ => 20) wide agal.
Proof.
  assert (Hl : 1 < pow10 ((20 - 17) / (25/10))).
  { assert (E : pow10 0 = 1) by (unfold pow10; apply Rpower_O; lra). rewrite <- E at 1. apply pow10_lt. lra. }
  unfold selected, red_enough, luminosity, in_volume, in_range, corrected. cbn [wide agal g_chisq g_zunc g_refmag g_dec g_ra m_maxchi m_cmax m_etamin m_run m_bias m_vlim m_z0 m_z1 m_zcush m_buf m_lcush].
  repeat split; try lra.
  - right. rewrite Rabs_R0. lra.
  - rewrite Rmax_right by lra. lra.
Qed.
(** Finding: the redshift range is tested on the uncorrected redshift only: a selected galaxy can have a corrected redshift outside of the range and its cushion. *)
Theorem C50_range_refuted : exists out gd r, select_mode (fun _ => 20) Truth wide [agal] = Ok (out, gd) /\ In r out /\
  r_z r < m_z0 wide - m_zcush wide - m_buf wide.
Proof.
  destruct (select_ok (fun _ => 20) Truth wide [agal] I) as (out & gd & E & (_ & HL & Hin & Hrow)); [cbn; lra|].
  assert (H0 : In 0%nat gd) by (apply Hin; exists agal; split; [reflexivity|apply agal_selected]).
  apply In_nth_error in H0. destruct H0 as [k Hk]. destruct (Hrow k 0%nat Hk) as (g & r & Hg & Hr & Rr & _).
  injection Hg as <-. exists out, gd, r. split; [exact E|]. split; [apply nth_error_In in Hr; exact Hr|].
  destruct Rr as (_ & _ & _ & _ & _ & Rz & _). rewrite Rz. unfold corrected. cbn. lra.
Qed.
Print Assumptions C50_range_refuted.

(** the cushion cut at the uncorrected redshift is a cut of its own: a galaxy that passes everything at
    its corrected redshift can be lost to it *)
Theorem C50_cushion_refuted : exists mstar m g, 0 < m_etamin m /\ red_enough m g /\
  m_etamin m < luminosity mstar (corrected m g) (g_refmag g) /\ in_volume m g /\ in_range m g /\ 0 < m_lcush m /\
  select_mode mstar Truth m [g] = Ok ([], []).
Proof.
  set (m := {| m_z0 := 1/5; m_z1 := 3/5; m_zcush := 0; m_buf := 0; m_lcush := 1/10; m_maxchi := 10; m_etamin := 1;
    m_cmax := fun _ => 10; m_run := true; m_apply := false; m_bias := fun _ => 1/10; m_eratio := fun _ => 1; m_vlim := fun _ _ => 1 |}).
  set (mstar := fun z : R => if Rltb z (7/20) then 20 else 10).
  exists mstar, m, agal.
  assert (E1 : mstar (3/10) = 20) by (unfold mstar; rewrite (proj2 (Rltb_iff _ _)) by lra; reflexivity).
  assert (E2 : mstar (2/5) = 10) by (unfold mstar; rewrite (proj2 (Rltb_false _ _)) by lra; reflexivity).
  assert (Ec : corrected m agal = 3/10) by (unfold corrected; cbn; field).
  assert (Hl : 1 < pow10 ((20 - 17) / (25/10))).
  { assert (E : pow10 0 = 1) by (unfold pow10; apply Rpower_O; lra). rewrite <- E at 1. apply pow10_lt. lra. }
  assert (He : 0 < m_etamin m) by (cbn; lra).
  split; [exact He|]. split; [unfold red_enough; cbn; lra|]. split; [unfold luminosity; rewrite Ec, E1; cbn; exact Hl|].
  split; [unfold in_volume; rewrite Ec; cbn; right; rewrite Rabs_R0; lra|]. split; [unfold in_range; cbn; lra|]. split; [cbn; lra|].
  destruct (select_ok mstar Truth m [agal] I He) as (out & gd & E & (_ & HL & Hin & _)).
  assert (Hgd : gd = []).
  { destruct gd as [|i gd]; [reflexivity|]. exfalso. destruct (proj1 (Hin i) (or_introl eq_refl)) as (g & Hg & (_ & _ & _ & _ & HS)).
    destruct i as [|[|i]]; [|discriminate Hg|discriminate Hg]. injection Hg as <-. revert HS. unfold luminosity. cbn [agal g_zunc g_refmag]. rewrite E2.
    pose proof (Rmax_r (1/10) (m_etamin m - m_lcush m)) as Hm. cbn [m m_etamin m_lcush] in Hm.
    assert (Hd : pow10 ((10 - 17) / (25/10)) < 1/10).
    { replace (1/10) with (pow10 (-1)); [apply pow10_lt; lra|]. unfold pow10. replace (-1) with (- (1)) by lra. rewrite Rpower_Ropp, Rpower_1 by lra. field. }
    intros HS. cbn [m m_etamin m_lcush] in HS. lra. }
  subst gd. destruct out; [exact E|discriminate HL].
Qed.
Print Assumptions C50_cushion_refuted.

(** ** the task: every mode's file holds the selections of all pixels in table order; other files are
    left alone *)
Theorem C50_files mstar src modes names clobber pixels d : source_ok src ->
  (forall name, In name names -> exists m, find (fun nm => String.eqb (fst nm) name) modes = Some (name, m) /\ 0 < m_etamin m) ->
  NoDup names -> pixels <> [] -> (clobber = true \/ forall x, In x names -> d x = None) ->
  exists d', run_redmagic mstar src modes names clobber pixels d = Ok d' /\
    (forall name, In name names -> exists parts, d' name = Some (concat parts) /\
       Forall2 (fun gals part => exists m gd, find (fun nm => String.eqb (fst nm) name) modes = Some (name, m) /\
                                   selection_of mstar src m gals part gd) pixels parts) /\
    (forall x, ~ In x names -> d' x = d x).
Proof.
  intros Hs Hm Hn Hp Hc.
  set (sel := fun name gals => match select_redmagic mstar src modes name gals with Ok o => fst o | Err _ => [] end).
  assert (Hsel : forall name gals, In name names -> exists gd, select_redmagic mstar src modes name gals = Ok (sel name gals, gd)).
  { intros name gals Hin. destruct (Hm name Hin) as (m & Hf & He). destruct (C50_exact mstar src modes name m gals Hs He Hf) as (out & gd & E & _).
    exists gd. unfold sel. rewrite E. reflexivity. }
  destruct (run_ok mstar src modes sel names Hsel Hn pixels clobber d Hp Hc) as (d' & E & H1 & H2).
  exists d'. split; [exact E|]. split; [|exact H2]. intros name Hin. exists (map (sel name) pixels). split; [rewrite (H1 name Hin), flat_map_concat_map; reflexivity|].
  destruct (Hm name Hin) as (m & Hf & He). clear -Hs He Hf. induction pixels as [|g l IH]; cbn; constructor; [|exact IH].
  destruct (C50_exact mstar src modes name m g Hs He Hf) as (out & gd & E & HS). exists m, gd. split; [exact Hf|]. unfold sel. rewrite E. exact HS.
Qed.
Print Assumptions C50_files.
(** without permission to overwrite, one existing file stops the run before anything is selected *)
Theorem C50_clobber mstar src modes names pixels d f v : In f names -> d f = Some v ->
  run_redmagic mstar src modes names false pixels d = Err RuntimeError.
Proof.
  intros Hin Hf. unfold run_redmagic. rewrite (proj2 (existsb_exists _ _)); [reflexivity|]. exists f. split; [exact Hin|]. rewrite Hf. reflexivity.
Qed.
Print Assumptions C50_clobber.
