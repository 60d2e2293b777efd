From Verif.Base Require Import Py PyLemmas Fn.
From Verif.Model Require Import Galfile Ingest RedTask.
From Verif.Spec Require Import Galfile Ingest RedTask.
From Verif.Proofs Require Import Galfile Ingest.
From Coq Require Import Lia List. Import ListNotations.

Section T.
Context {Gal Row Rnd : Type} (e : tenv Gal Row Rnd) (keep : nat -> Gal -> bool) (row : nat -> Gal -> Row).
Hypothesis Hsel : by_galaxy e keep row.
Let sel (m : nat) (gals : list Gal) : list Row := map (row m) (filter (keep m) gals).

Lemma modes_spec gals jm : forall c st, NoDup (map snd jm) -> NoDup (map fst jm) ->
  (forall j m, In (j, m) jm -> st j = true -> c m <> None) ->
  exists c' st', spool_modes e gals jm c st = (c', st', Ok tt) /\
    (forall j m, In (j, m) jm -> c' m = Some ((if st j then match c m with Some o => o | None => [] end else []) ++ sel m gals) /\ st' j = true) /\
    (forall m, ~ In m (map snd jm) -> c' m = c m) /\ (forall j, ~ In j (map fst jm) -> st' j = st j).
Proof.
  induction jm as [|[j m] jm IH]; intros c st N1 N2 HS; cbn [spool_modes].
  - exists c, st. repeat split; auto; contradiction.
  - cbn [map fst snd] in N1, N2. inversion N1 as [|? ? A1 A2]; inversion N2 as [|? ? B1 B2]; subst. rewrite Hsel. fold (sel m gals).
    assert (Dm : forall j' m', In (j', m') jm -> m' <> m) by (intros j' m' H ->; apply A1; apply (in_map snd) in H; exact H).
    assert (Dj : forall j' m', In (j', m') jm -> j' <> j) by (intros j' m' H ->; apply B1; apply (in_map fst) in H; exact H).
    destruct (st j) eqn:Ej.
    + destruct (c m) as [old|] eqn:Ec; [|exfalso; apply (HS j m (or_introl eq_refl) Ej Ec)].
      destruct (IH (upd c m (Some (old ++ sel m gals))) st A2 B2) as (c' & st' & E & X & Y & W).
      { intros j' m' H S. rewrite upd_other by (apply Dm in H; congruence). apply (HS j' m' (or_intror H) S). }
      exists c', st'. split; [exact E|]. split; [|split].
      * intros j' m' [[= <- <-]|H].
        -- rewrite Ej, Ec, (Y m A1), upd_same. split; [reflexivity|]. rewrite (W j B1). exact Ej.
        -- destruct (X j' m' H) as [X1 X2]. rewrite X1, upd_other by (apply Dm in H; congruence). auto.
      * intros m' H. rewrite Y by (intros I; apply H; right; exact I). apply upd_other. intros ->. apply H. left. reflexivity.
      * intros j' H. apply W. intros I. apply H. right. exact I.
    + destruct (IH (upd c m (Some (sel m gals))) (upd st j true) A2 B2) as (c' & st' & E & X & Y & W).
      { intros j' m' H S. rewrite upd_other by (apply Dm in H; congruence). rewrite upd_other in S by (apply Dj in H; congruence). apply (HS j' m' (or_intror H) S). }
      exists c', st'. split; [exact E|]. split; [|split].
      * intros j' m' [[= <- <-]|H].
        -- rewrite Ej, (Y m A1), upd_same. split; [reflexivity|]. rewrite (W j B1). apply upd_same.
        -- destruct (X j' m' H) as [X1 X2]. rewrite X1, !upd_other by (first [apply Dm in H; congruence|apply Dj in H; congruence]). auto.
      * intros m' H. rewrite Y by (intros I; apply H; right; exact I). apply upd_other. intros ->. apply H. left. reflexivity.
      * intros j' H. rewrite W by (intros I; apply H; right; exact I). apply upd_other. intros ->. apply H. left. reflexivity.
Qed.

Lemma sel_app m a b : sel m (a ++ b) = sel m a ++ sel m b.
Proof. unfold sel. rewrite filter_app, map_app. reflexivity. Qed.

(** pixels that can be read, then whatever follows *)
Lemma pixels_spec jm rest : NoDup (map snd jm) -> NoDup (map fst jm) -> forall ps c st,
  (forall j m, In (j, m) jm -> st j = true -> c m <> None) ->
  exists c' st', spool_pixels e jm (pixels_of ps ++ rest) c st = spool_pixels e jm rest c' st' /\
    (forall j m, In (j, m) jm -> c' m = match ps with [] => c m | _ => Some ((if st j then match c m with Some o => o | None => [] end else []) ++ sel m (List.concat ps)) end /\ (st' j = true -> c' m <> None)) /\
    (forall m, ~ In m (map snd jm) -> c' m = c m).
Proof.
  intros N1 N2. induction ps as [|p ps IH]; intros c st HS.
  - exists c, st. cbn. repeat split; auto. apply HS; assumption.
  - cbn [pixels_of map app spool_pixels]. destruct (modes_spec p jm c st N1 N2 HS) as (c1 & st1 & E1 & X1 & Y1 & _). rewrite E1.
    destruct (IH c1 st1) as (c2 & st2 & E2 & X2 & Y2).
    { intros j m H _. destruct (X1 j m H) as [X _]. congruence. }
    exists c2, st2. split; [exact E2|]. split.
    + intros j m H. destruct (X1 j m H) as [A1 A2]. destruct (X2 j m H) as [B1 B2]. split; [|exact B2]. rewrite B1. cbn [List.concat]. destruct ps as [|q ps'].
      * cbn [List.concat]. rewrite app_nil_r. exact A1.
      * rewrite A2, A1, (sel_app m p), app_assoc. reflexivity.
    + intros m H. rewrite Y2, Y1 by exact H. reflexivity.
Qed.

Lemma numbered_fst (l : list nat) : map fst (combine (seq 0 (List.length l)) l) = seq 0 (List.length l).
Proof. generalize 0. induction l as [|x l IH]; intros k; cbn; [reflexivity|]. rewrite IH. reflexivity. Qed.
Lemma numbered_snd (l : list nat) : map snd (combine (seq 0 (List.length l)) l) = l.
Proof. generalize 0. induction l as [|x l IH]; intros k; cbn; [reflexivity|]. rewrite IH. reflexivity. Qed.

Lemma spooled ps rest c : NoDup (te_modes e) ->
  exists c' st', spool_pixels e (combine (seq 0 (List.length (te_modes e))) (te_modes e)) (pixels_of ps ++ rest) c (fun _ => false) =
      spool_pixels e (combine (seq 0 (List.length (te_modes e))) (te_modes e)) rest c' st' /\
    (forall m, In m (te_modes e) -> c' m = match ps with [] => c m | _ => Some (sel m (List.concat ps)) end) /\
    (forall m, ~ In m (te_modes e) -> c' m = c m).
Proof.
  intros N. set (jm := combine _ _).
  assert (F : map fst jm = seq 0 (List.length (te_modes e))) by apply numbered_fst. assert (S : map snd jm = te_modes e) by apply numbered_snd.
  destruct (pixels_spec jm rest) with (ps := ps) (c := c) (st := fun _ : nat => false) as (c' & st' & E & X & Y); [rewrite S; exact N|rewrite F; apply seq_NoDup|discriminate|].
  exists c', st'. split; [exact E|]. split.
  - intros m H. rewrite <- S in H. apply in_map_iff in H. destruct H as ([j m'] & <- & H). destruct (X j m' H) as [A _]. exact A.
  - intros m H. apply Y. rewrite S. exact H.
Qed.

Lemma randoms_spec clobber n c : (forall m k gals, exists pts, te_gen e m k gals = Ok pts) -> forall ms r, NoDup ms ->
  (forall m, In m ms -> c m <> None) -> (clobber = true \/ forall m, In m ms -> te_fixed e m = false -> r m = None) ->
  exists r', make_randoms e clobber n ms c r = (r', Ok tt) /\
    (forall m gals, In m ms -> te_fixed e m = false -> c m = Some gals -> exists pts, r' m = Some pts /\ te_gen e m (wanted_points n (List.length gals)) gals = Ok pts) /\
    (forall m, ~ In m ms \/ te_fixed e m = true -> r' m = r m).
Proof.
  intros G. induction ms as [|m ms IH]; intros r N HC HR; cbn [make_randoms].
  - exists r. repeat split; auto. intros; contradiction.
  - inversion N as [|? ? A1 A2]; subst. destruct (te_fixed e m) eqn:Ef.
    + destruct (IH r A2) as (r' & E & X & Y); [intros; apply HC; right; assumption|destruct HR as [HR|HR]; [left; exact HR|right; intros; apply HR; auto; right; assumption]|].
      exists r'. split; [exact E|]. split.
      * intros m' gals [<-|H] F C; [congruence|]. apply (X m' gals H F C).
      * intros m' [H|H]; [apply Y; left; intros I; apply H; right; exact I|apply Y; right; exact H].
    + destruct (c m) as [gals|] eqn:Ec; [|exfalso; apply (HC m (or_introl eq_refl) Ec)].
      assert (NG : negb clobber && match r m with Some _ => true | None => false end = false).
      { destruct HR as [->|HR]; [reflexivity|]. rewrite (HR m (or_introl eq_refl) Ef). apply andb_false_r. }
      rewrite NG. set (k := match n with None => _ | Some k => k end). assert (K : k = wanted_points n (List.length gals)) by (unfold k, wanted_points; destruct n; lia).
      destruct (G m k gals) as (pts & Ep). rewrite Ep.
      destruct (IH (upd r m (Some pts)) A2) as (r' & E & X & Y); [intros; apply HC; right; assumption| |].
      { destruct HR as [HR|HR]; [left; exact HR|right]. intros m' H F. rewrite upd_other by (intros ->; contradiction). apply HR; [right; exact H|exact F]. }
      exists r'. split; [exact E|]. split.
      * intros m' g' [<-|H] F C; [|apply (X m' g' H F C)]. exists pts. rewrite Ec in C. injection C as <-. split; [|rewrite <- K; exact Ep]. rewrite Y by (left; exact A1). apply upd_same.
      * intros m' H. rewrite Y by (destruct H as [H|H]; [left; intros I; apply H; right; exact I|right; exact H]). apply upd_other. intros ->. destruct H as [H|H]; [apply H; left; reflexivity|congruence].
Qed.
Lemma randoms_stop n c : (forall m k gals, exists pts, te_gen e m k gals = Ok pts) -> forall ms r m, NoDup ms -> (forall m, In m ms -> c m <> None) ->
  In m ms -> te_fixed e m = false -> r m <> None -> exists r', make_randoms e false n ms c r = (r', Err RuntimeError).
Proof.
  intros G. induction ms as [|x ms IH]; intros r m N HC H F R; [contradiction|]. inversion N as [|? ? A1 A2]; subst. cbn [make_randoms].
  destruct (te_fixed e x) eqn:Ef.
  - destruct H as [->|H]; [congruence|]. apply (IH r m A2); auto. intros; apply HC; right; assumption.
  - destruct (c x) as [gals|] eqn:Ec; [|exfalso; apply (HC x (or_introl eq_refl) Ec)]. destruct (r x) as [o|] eqn:Er; cbn [negb andb]; [eauto|].
    destruct (G x (match n with None => List.length gals * 10 | Some k => k end) gals) as (pts & ->). destruct H as [->|H]; [congruence|]. apply (IH _ m A2); auto; [intros; apply HC; right; assumption|].
    rewrite upd_other; [exact R|]. intros ->. contradiction.
Qed.
End T.

(** *** pixels with and without redshifts *)
Lemma zpixel_read npt nt tab i x : regular npt nt tab -> consistent tab -> nth_error tab i = Some x ->
  from_galfile (pixel_geo npt) nt tab (zpixel_args nt (ehpix x)) =
  match ezfile x with Some z => Ok (combine (erows x) (map Some z)) | None => Err ValueError end.
Proof.
  intros (Hn & ND & HR) HC Hi. pose proof (nth_error_In _ _ Hi) as He. destruct (HR x He) as [Hr Hl].
  assert (Hg : exists idx, get_subpixel_indices (pixel_geo npt) tab (zpixel_args nt (ehpix x)) = Ok idx).
  { unfold get_subpixel_indices. cbn [zpixel_args a_hpix a_nside a_border List.length Nat.eqb orb]. destruct (Nat.eqb_spec nt 0); [lia|].
    destruct (eu_match_ok [ehpix x] (map (fun y => up (pixel_geo npt) (ehpix y)) tab)) as (m & ->); [discriminate|destruct tab; [contradiction|discriminate]|constructor; [intros []|constructor]|]. cbn [bind]. change (Qlt_bool 0 0) with false. cbv iota. eauto. }
  destruct Hg as (idx & Hg). pose proof (gsi_ok _ _ _ _ Hg) as Hsel.
  assert (Hf : filter (selected (pixel_geo npt) tab (zpixel_args nt (ehpix x))) tab = [x]).
  { rewrite <- (filter_one tab i x ND Hi). apply filter_ext. intros y. unfold selected. cbn [zpixel_args a_hpix a_nside a_border List.length Nat.eqb orb pixel_geo up]. destruct (Nat.eqb_spec nt 0); [lia|]. reflexivity. }
  rewrite Hf in Hsel. unfold from_galfile.
  assert (Hck : check_args (pixel_geo npt) nt (zpixel_args nt (ehpix x)) = Ok tt).
  { unfold check_args. cbn [zpixel_args a_border a_nside a_hpix existsb pixel_geo npix_of]. change (Qlt_bool 0 0) with false. cbn [andb].
    destruct (Z.ltb_spec (ehpix x) 0); [lia|]. destruct (Z.leb_spec npt (ehpix x)); [lia|]. cbn [orb]. rewrite andb_false_r. rewrite Nat.ltb_irrefl. reflexivity. }
  rewrite Hck, Hg. cbn [bind]. rewrite Hsel. cbn [zpixel_args a_zred a_temp filter]. unfold has_z. destruct (ezfile x) as [z|] eqn:Ez; cbn [List.length Nat.eqb bind]; [|reflexivity].
  cbn [mapM a_hpix a_nside a_border List.length]. unfold load, rows_assign. rewrite Hl, Nat.eqb_refl. cbn [bind]. rewrite Ez. destruct (HC x He) as [_ Hz]. rewrite (Hz z Ez), Nat.eqb_refl. cbn [bind].
  change (Qlt_bool 0 0) with false. rewrite andb_false_r. cbn [List.concat]. rewrite app_nil_r. reflexivity.
Qed.
