(** C119: the red galaxies with spectra. *)
From Coq Require Import Reals Lra Sorted.
From Verif.Base Require Import Py PyLemmas.
From Verif.Model Require Import BkgGen SelectRed.
From Verif.Spec Require Import SelectRed.
From Verif.Proofs Require Import Radii SelectRed.
From Coq Require Import Lia List. Import ListNotations.
Local Open Scope R_scope.

(** C119: given a match within the tables, galaxies in range and a bound for every colour, the red galaxies are selected: those matched
    to a spectrum of good precision with a redshift strictly in the calibrated range, brighter than the limit, and red at that
    redshift in the colour of one of the redshift intervals it is inside of. *)
Theorem C119_selected : forall zr maxerr limmag nsig modes zb match_of mn sc gals spec,
  let good := filter (fun s => if Rlt_dec (sp_err s) maxerr then true else false) spec in
  let candidate i g z := exists i0 s, In (i0, i) (match_of good) /\ nth_error good i0 = Some s /\ nth_error gals i = Some g /\ z = sp_z s /\
                                      fst zr < z < snd zr /\ rg_refmag g < limmag in
  (forall i0 i1, In (i0, i1) (match_of good) -> (i0 < length good)%nat /\ (i1 < length gals)%nat) ->
  (length modes <= S (length zb))%nat -> (exists i g z, candidate i g z) ->
  exists rows, select_red zr maxerr limmag nsig modes zb match_of mn sc gals spec = Ok rows /\
  forall i g z, In (mkRow i g z) rows <->
    candidate i g z /\ exists k j, nth_error modes k = Some j /\ inside (fst zr - 11/1000) (snd zr + 11/1000) zb k z /\ is_red mn sc nsig j g z.
Proof.
  intros zr maxerr limmag nsig modes zb match_of mn sc gals spec good candidate Hm Hl Hc. unfold select_red. change (good_spectra maxerr spec) with good.
  destruct (matched_ok gals good (match_of good) Hm) as (all & E & _). rewrite E. cbn [bind]. pose proof (matched_In _ _ _ _ E) as MI. set (rows := filter (in_range zr limmag) all).
  assert (C : forall i g z, In (mkRow i g z) rows <-> candidate i g z).
  { intros i g z. unfold rows. rewrite filter_In, MI. cbn [r_gal r_g r_z]. unfold in_range, candidate. cbn [r_g r_z]. rewrite !andb_true_iff, !Rltb_iff. split.
    - intros ((i0 & s & A & B & C & D) & (F & G) & H). exists i0, s. auto 10.
    - intros (i0 & s & A & B & C & D & (F & G) & H). split; [exists i0, s; auto|auto]. }
  destruct Hc as (i & g & z & Hc). apply C in Hc.
  destruct (marks_spec mn sc nsig modes (zbounds zr zb) rows (map (fun _ => false) rows)) as (mk & EM & LM & SM); [unfold zbounds; cbn; rewrite app_length; cbn; lia|apply map_length|].
  exists (map fst (filter snd (combine rows mk))). split; [rewrite EM; cbn [bind]; clearbody rows; destruct rows as [|r0 rest]; [destruct Hc|]; destruct modes; reflexivity|].
  clear i g z Hc. intros i g z. rewrite (filter_combine rows mk _ LM). rewrite <- C. split.
  - intros (n & Hn & Hk). apply (SM n _ Hn) in Hk. split; [apply nth_error_In in Hn; exact Hn|]. destruct Hk as [Hk|(k & j & a & b & A1 & A2 & A3 & A4 & A5)].
    + rewrite nth_error_map, Hn in Hk. discriminate.
    + exists k, j. split; [exact A1|]. split; [exists a, b; auto|exact A5].
  - intros (Hin & k & j & A1 & (a & b & A2 & A3 & A4) & A5). apply In_nth_error in Hin. destruct Hin as (n & Hn). exists n. split; [exact Hn|]. apply (SM n _ Hn). right. exists k, j, a, b. auto.
Qed.
Print Assumptions C119_selected.
(** Finding: with no galaxy in range the selection ends with an IndexError. *)
Theorem C119_none_refuted : forall zr maxerr limmag nsig modes zb match_of mn sc gals spec, modes <> [] ->
  match_of (good_spectra maxerr spec) = [] -> select_red zr maxerr limmag nsig modes zb match_of mn sc gals spec = Err IndexError.
Proof. intros zr maxerr limmag nsig modes zb match_of mn sc gals spec N E. unfold select_red. rewrite E. cbn. destruct modes; [congruence|reflexivity]. Qed.
Print Assumptions C119_none_refuted.
(** Every redshift of the range is inside an interval, unless it is one of the bounds, *)
Theorem C119_covers_partial : forall lo hi zb z, lo < z < hi -> ~ In z zb -> exists k, (k <= length zb)%nat /\ inside lo hi zb k z.
Proof.
  intros lo hi zb. revert lo. induction zb as [|b zb IH]; intros lo z H N.
  - exists 0%nat. split; [cbn; lia|]. exists lo, hi. cbn. auto.
  - destruct (Rtotal_order z b) as [L|[L|L]].
    + exists 0%nat. split; [cbn; lia|]. exists lo, b. cbn. repeat split; lra.
    + exfalso. apply N. left. symmetry. exact L.
    + destruct (IH b z) as (k & K & a & c & A & B & D); [lra|intros X; apply N; right; exact X|]. exists (S k). split; [cbn; lia|]. exists a, c. auto.
Qed.
Print Assumptions C119_covers_partial.
(** and inside one only, if the bounds increase; *)
Theorem C119_one_colour : forall lo hi zb z k l, StronglySorted Rlt (lo :: zb ++ [hi]) -> inside lo hi zb k z -> inside lo hi zb l z -> k = l.
Proof.
  intros lo hi zb z k l S (a & b & A1 & A2 & A3) (c & d & C1 & C2 & C3). set (L := lo :: zb ++ [hi]) in *.
  assert (M : forall (l : list R) i j x y, StronglySorted Rlt l -> (i < j)%nat -> nth_error l i = Some x -> nth_error l j = Some y -> x < y).
  { induction l0 as [|h t IH]; intros i j x y SS Hij Ex Ey; [destruct i; discriminate|]. inversion SS as [|? ? S1 F]; subst. destruct j as [|j]; [lia|]. destruct i as [|i]; cbn in *.
    - injection Ex as <-. apply nth_error_In in Ey. rewrite Forall_forall in F. apply F, Ey.
    - apply (IH i j x y S1); [lia|exact Ex|exact Ey]. }
  destruct (Nat.lt_trichotomy k l) as [H|[H|H]]; [|exact H|]; exfalso.
  - destruct (Nat.eq_dec (Datatypes.S k) l) as [<-|Hn]; [rewrite A2 in C1; injection C1 as <-; lra|]. assert (b < c) by (apply (M L (Datatypes.S k) l); auto; lia). lra.
  - destruct (Nat.eq_dec (Datatypes.S l) k) as [<-|Hn]; [rewrite C2 in A1; injection A1 as <-; lra|]. assert (d < a) by (apply (M L (Datatypes.S l) k); auto; lia). lra.
Qed.
Print Assumptions C119_one_colour.
(** Finding: a galaxy with a redshift equal to a bound between two colours is inside none and never selected, however red. *)
Theorem C119_bound_refuted : forall lo hi zb z, StronglySorted Rlt (lo :: zb ++ [hi]) -> In z zb -> forall k, ~ inside lo hi zb k z.
Proof.
  intros lo hi zb z S Hz k (a & b & A & B & L1 & L2). set (L := lo :: zb ++ [hi]) in *.
  assert (Hin : In z L) by (right; apply in_or_app; left; exact Hz). apply In_nth_error in Hin. destruct Hin as (n & Hn).
  assert (M : forall (l : list R) i j x y, StronglySorted Rlt l -> (i < j)%nat -> nth_error l i = Some x -> nth_error l j = Some y -> x < y).
  { induction l as [|h t IH]; intros i j x y SS Hij Ex Ey; [destruct i; discriminate|]. inversion SS as [|? ? S1 F]; subst. destruct j as [|j]; [lia|]. destruct i as [|i]; cbn in *.
    - injection Ex as <-. apply nth_error_In in Ey. rewrite Forall_forall in F. apply F, Ey.
    - apply (IH i j x y S1); [lia|exact Ex|exact Ey]. }
  destruct (Nat.lt_trichotomy n k) as [H|[H|H]].
  - assert (z < a) by (apply (M L n k); auto). lra.
  - subst n. rewrite A in Hn. injection Hn as ->. lra.
  - destruct (Nat.eq_dec n (Datatypes.S k)) as [->|Hn']; [rewrite B in Hn; injection Hn as ->; lra|]. assert (b < z) by (apply (M L (Datatypes.S k) n); auto; lia). lra.
Qed.
Print Assumptions C119_bound_refuted.
(** The calibrated range contains the configured one if that does not start below 0.05. *)
Theorem C119_range_partial : forall zlo zhi cushion z, 0 <= cushion -> 5/100 <= zlo -> zlo <= z <= zhi ->
  fst (zrange_cushioned zlo zhi cushion) <= z <= snd (zrange_cushioned zlo zhi cushion).
Proof. intros zlo zhi cushion z H1 H2 H3. cbn. split; [apply Rmax_lub; lra|lra]. Qed.
Print Assumptions C119_range_partial.
(** Finding: below that redshifts of the configured range are left out. *)
Theorem C119_range_refuted : forall zlo zhi cushion z, z < 5/100 -> z < fst (zrange_cushioned zlo zhi cushion).
Proof. intros zlo zhi cushion z H. cbn. eapply Rlt_le_trans; [exact H|apply Rmax_r]. Qed.
Print Assumptions C119_range_refuted.

(** cases *)
Definition exg (c : R) : rgal := mkRG 18 (fun _ => c) (fun _ => 3/100).
Definition ex_sel := select_red (1/10, 5/10) (1/1000) 20 2 [1; 2]%nat [3/10] (fun _ => [(0, 0); (1, 1); (2, 0)]%nat) (fun j z => INR j) (fun _ _ => 4/100)
   [exg 1; exg 2] [mkSp (2/10) 0; mkSp (4/10) 0; mkSp (25/100) 0].
(** Finding: a galaxy with two spectra is in the catalog twice. *)
Theorem C119_twice_refuted : exists rows, ex_sel = Ok rows /\ In (mkRow 0 (exg 1) (2/10)) rows /\ In (mkRow 0 (exg 1) (25/100)) rows /\ In (mkRow 1 (exg 2) (4/10)) rows.
Proof.
  unfold ex_sel. match goal with |- exists rows, select_red ?zr ?me ?lm ?ns ?mo ?zb ?mt ?mn ?sc ?ga ?sp = _ /\ _ => pose proof (C119_selected zr me lm ns mo zb mt mn sc ga sp) as S end.
  cbn [filter sp_err] in S. destruct (Rlt_dec 0 (1/1000)) as [_|N]; [|exfalso; lra]. cbn [fst snd length] in S.
  destruct S as (rows & E & K).
  - intros i0 i1 [H|[H|[H|[]]]]; injection H as <- <-; cbn; lia.
  - lia.
  - exists 0%nat, (exg 1), (2/10). exists 0%nat, (mkSp (2/10) 0). cbn. repeat split; auto; lra.
  - exists rows. split; [exact E|]. assert (Q : sqrt (3 / 100 * (3 / 100) + 4 / 100 * (4 / 100)) = 5/100).
    { replace (3 / 100 * (3 / 100) + 4 / 100 * (4 / 100)) with (5/100 * (5/100)) by field. apply sqrt_square. lra. }
    split; [|split]; apply K.
    + split; [exists 0%nat, (mkSp (2/10) 0); cbn; repeat split; auto; lra|]. exists 0%nat, 1%nat. split; [reflexivity|]. split; [exists (1/10 - 11/1000), (3/10); cbn; repeat split; lra|].
      unfold is_red. cbn [exg rg_col rg_err INR]. rewrite Q. rewrite Rabs_pos_eq; lra.
    + split; [exists 2%nat, (mkSp (25/100) 0); cbn; repeat split; auto; lra|]. exists 0%nat, 1%nat. split; [reflexivity|]. split; [exists (1/10 - 11/1000), (3/10); cbn; repeat split; lra|].
      unfold is_red. cbn [exg rg_col rg_err INR]. rewrite Q. rewrite Rabs_pos_eq; lra.
    + split; [exists 1%nat, (mkSp (4/10) 0); cbn; repeat split; auto; lra|]. exists 1%nat, 2%nat. split; [reflexivity|]. split; [exists (3/10), (5/10 + 11/1000); cbn; repeat split; lra|].
      unfold is_red. cbn [exg rg_col rg_err INR]. rewrite Q. rewrite Rabs_pos_eq; lra.
Qed.
Print Assumptions C119_twice_refuted.
(** More colours than redshift intervals are refused, whatever the galaxies. *)
Theorem C119_too_many_colours : forall zr maxerr limmag nsig modes zb match_of mn sc gals spec,
  (forall i0 i1, In (i0, i1) (match_of (filter (fun s => if Rlt_dec (sp_err s) maxerr then true else false) spec)) ->
     (i0 < length (filter (fun s => if Rlt_dec (sp_err s) maxerr then true else false) spec))%nat /\ (i1 < length gals)%nat) ->
  (S (length zb) < length modes)%nat -> select_red zr maxerr limmag nsig modes zb match_of mn sc gals spec = Err IndexError.
Proof.
  intros zr maxerr limmag nsig modes zb match_of mn sc gals spec M L.
  assert (G : good_spectra maxerr spec = filter (fun s => if Rlt_dec (sp_err s) maxerr then true else false) spec).
  { unfold good_spectra. apply filter_ext. intros s. unfold Rltb. destruct (Rlt_dec _ _); reflexivity. }
  rewrite <- G in M. unfold select_red. set (good := good_spectra maxerr spec) in *.
  assert (T : exists all, matched gals good (match_of good) = Ok all).
  { revert M. induction (match_of good) as [|[i0 i1] t IH]; intros M; cbn; [eexists; reflexivity|].
    destruct (M i0 i1 (or_introl eq_refl)) as [A B]. destruct (nth_error gals i1) eqn:E1; [|apply nth_error_None in E1; lia].
    destruct (nth_error good i0) eqn:E0; [|apply nth_error_None in E0; lia].
    destruct IH as [all ->]; [intros j0 j1 J; apply M; right; exact J|]. cbn [bind]. eexists. reflexivity. }
  destruct T as [all ->]. cbn [bind]. cbv zeta.
  assert (K : forall modes zb rows mark, (length zb <= length modes)%nat -> modes <> [] -> marks mn sc nsig modes zb rows mark = Err IndexError).
  { clear. induction modes as [|j modes IH]; intros zb rows mark H N; [congruence|]. cbn [marks]. destruct zb as [|z0 [|z1 zb]]; [reflexivity|reflexivity|].
    cbn [length] in H. apply IH; cbn [length]; [lia|]. destruct modes; [cbn in H; lia|discriminate]. }
  destruct (filter (in_range zr limmag) all); [destruct modes; [cbn in L; lia|reflexivity]|].
  rewrite K; [reflexivity| |destruct modes; [cbn in L; lia|discriminate]]. unfold zbounds. cbn [length]. rewrite app_length. cbn [length]. lia.
Qed.
Print Assumptions C119_too_many_colours.
