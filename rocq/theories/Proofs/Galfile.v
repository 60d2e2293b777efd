From Verif.Base Require Import Py PyLemmas.
From Verif.Model Require Import Galfile.
From Verif.Spec Require Import Galfile.

Lemma is_in_iff x l : is_in x l = true <-> In x l.
Proof.
  unfold is_in. rewrite existsb_exists. split.
  - intros (y & H & E). apply Z.eqb_eq in E. subst; exact H.
  - intros H. exists x. split; [exact H|apply Z.eqb_refl].
Qed.

Lemma index_is_in y a1 : (match index_ofZ y a1 with Some _ => true | None => false end) = is_in y a1.
Proof.
  destruct (index_ofZ y a1) as [i|] eqn:E; symmetry.
  - apply is_in_iff. apply index_ofZ_nth in E. eapply nth_error_In; eauto.
  - apply index_ofZ_None in E. destruct (is_in y a1) eqn:E2; [|reflexivity]. apply is_in_iff in E2. contradiction.
Qed.


(** selecting with esutil match = filtering by membership *)
Lemma eu_match_filter {A} a1 (l : list A) (f : A -> Z) m :
  eu_match a1 (map f l) = Ok m -> np_sel l (snd m) = filter (fun x => is_in (f x) a1) l /\
  (forall i, In i (snd m) -> i < List.length l).
Proof.
  unfold eu_match. destruct (_ || _); [discriminate|]. destruct (nodupZ a1); [|discriminate]. intros [= <-].
  rewrite match_from_snd, where_from_map.
  rewrite (where_from_ext _ (fun x => is_in (f x) a1)) by (intros; apply index_is_in).
  split.
  - apply (np_sel_where_filter (fun x => is_in (f x) a1) l).
  - intros i Hi. apply (np_where_spec (fun x => is_in (f x) a1) l i) in Hi. destruct Hi as (x & Hx & _).
    apply nth_error_Some. congruence.
Qed.

Lemma trim_ok g rows r : trim g rows = Ok r -> r = filter (fun o => is_in (pix512 g (rpos (fst o))) (cutpix g)) rows.
Proof.
  unfold trim. destruct (eu_match _ _) as [m|] eqn:E; cbn; [|discriminate]. intros H.
  apply np_take_sel in H. subst r. apply (eu_match_filter (cutpix g) rows (fun o => pix512 g (rpos (fst o))) m E).
Qed.
Lemma trim_succeeds g rows : NoDup (cutpix g) -> cutpix g <> [] -> rows <> [] -> exists r, trim g rows = Ok r.
Proof.
  intros H1 H2 H3. unfold trim. destruct (eu_match _ _) as [m|] eqn:E; cbn.
  - destruct (eu_match_filter (cutpix g) rows (fun o => pix512 g (rpos (fst o))) m E) as [_ Hlt].
    rewrite np_take_ok by exact Hlt. eexists; reflexivity.
  - exfalso. unfold eu_match in E. rewrite map_length in E. apply nodupZ_iff in H1. rewrite H1 in E.
    destruct (cutpix g); [congruence|]. destruct rows; [congruence|]. discriminate.
Qed.

Lemma mapM_map {A B} (f : A -> res B) (h : A -> B) l :
  (forall x, In x l -> f x = Ok (h x)) -> mapM f l = Ok (map h l).
Proof.
  induction l as [|a l IH]; intros H; cbn; [reflexivity|]. rewrite H by (left; reflexivity). cbn.
  rewrite IH by (intros; apply H; right; assumption). reflexivity.
Qed.

Lemma load_ok usez e :
  List.length (erows e) = engals e -> (forall z, ezfile e = Some z -> List.length z = engals e) ->
  (usez = true -> has_z e = true) -> load usez e = Ok (with_zred usez e).
Proof.
  intros H1 H2 H3. unfold load, rows_assign, with_zred. rewrite H1, Nat.eqb_refl. cbn [bind].
  destruct usez; [|reflexivity]. specialize (H3 eq_refl). unfold has_z in H3.
  destruct (ezfile e) as [z|]; [|discriminate]. rewrite (H2 z eq_refl), Nat.eqb_refl. reflexivity.
Qed.

Lemma np_sel_seq {A} (l : list A) : np_sel l (seq 0 (List.length l)) = l.
Proof.
  induction l as [|a l IH]; cbn; [reflexivity|]. f_equal. rewrite <- seq_shift, np_sel_shift. exact IH.
Qed.

Lemma uniq_in x l : is_in x (uniq l) = is_in x l.
Proof.
  destruct (is_in x l) eqn:E.
  - apply is_in_iff. apply nodup_In, is_in_iff, E.
  - destruct (is_in x (uniq l)) eqn:E2; [|reflexivity]. apply is_in_iff, nodup_In, is_in_iff in E2. congruence.
Qed.

(** the selected table lines *)
Definition selected (g : geo) (tab : list entry) (a : args) (e : entry) : bool :=
  if Nat.eqb (List.length (a_hpix a)) 0 || Nat.eqb (a_nside a) 0 then true
  else if Qlt_bool 0 (a_border a)
       then is_in (ehpix e) (map ehpix (filter (fun e => is_in (up g (ehpix e)) (a_hpix a)) tab) ++ bpix g)
       else is_in (up g (ehpix e)) (a_hpix a).

Lemma filter_all_true {A} (f : A -> bool) l : (forall x, In x l -> f x = true) -> filter f l = l.
Proof.
  induction l as [|a l IH]; intros H; cbn; [reflexivity|]. rewrite H by (left; reflexivity).
  rewrite IH; [reflexivity|]. intros; apply H; right; assumption.
Qed.

Lemma gsi_ok g tab a idx : get_subpixel_indices g tab a = Ok idx -> np_sel tab idx = filter (selected g tab a) tab.
Proof.
  unfold get_subpixel_indices, selected. destruct (_ || _) eqn:E0.
  { intros [= <-]. rewrite np_sel_seq. symmetry. apply filter_all_true. reflexivity. }
  destruct (eu_match (a_hpix a) _) as [m|] eqn:Em; cbn [bind]; [|discriminate].
  destruct (eu_match_filter (a_hpix a) tab (fun e => up g (ehpix e)) m Em) as [Hsel _].
  destruct (Qlt_bool 0 (a_border a)).
  - destruct (negb _); [discriminate|]. destruct (eu_match (uniq _) _) as [m2|] eqn:Em2; cbn [bind]; [|discriminate].
    intros [= <-]. destruct (eu_match_filter _ tab ehpix m2 Em2) as [Hs2 _]. rewrite Hs2, Hsel.
    apply filter_ext. intros e. apply uniq_in.
  - intros [= <-]. exact Hsel.
Qed.

Lemma filter_filter {A} (f h : A -> bool) l : filter f (filter h l) = filter (fun x => h x && f x) l.
Proof.
  induction l as [|a l IH]; cbn; [reflexivity|]. destruct (h a); cbn; [|exact IH].
  destruct (f a); rewrite IH; reflexivity.
Qed.

Definition trimming (a : args) : bool :=
  Nat.eqb (List.length (a_hpix a)) 1 && Nat.ltb 0 (a_nside a) && Qlt_bool 0 (a_border a).
Definition usable (a : args) (e : entry) : bool := if a_zred a then has_z e else true.

Lemma match_nonempty {A B} (l : list A) x (X : res B) r :
  match l with [] => Err x | _ => X end = Ok r -> l <> [] /\ X = Ok r.
Proof. destruct l; [discriminate|]. intros H. split; [discriminate|exact H]. Qed.

(** Summary of a successful call on a consistent table. *)
Lemma from_galfile_summary g nt tab a r :
  consistent tab -> from_galfile g nt tab a = Ok r ->
  check_args g nt a = Ok tt /\
  (exists idx, get_subpixel_indices g tab a = Ok idx) /\
  let es := filter (usable a) (filter (selected g tab a) tab) in
  let parts := map (with_zred (a_zred a)) es in
  es <> [] /\
  (if a_temp a then
     exists kept, mapM (fun p => let u := filter (cut a) p in
                                match u with [] => Ok [] | _ => if trimming a then trim g u else Ok u end) parts = Ok kept
        /\ r = List.concat kept
   else if trimming a then trim g (List.concat parts) = Ok r else r = List.concat parts).
Proof.
  intros Hc. unfold from_galfile. destruct (check_args g nt a) as [[]|]; cbn [bind]; [|discriminate].
  destruct (get_subpixel_indices g tab a) as [idx|] eqn:Eg; cbn [bind]; [|discriminate].
  rewrite (gsi_ok _ _ _ _ Eg). intros H. split; [reflexivity|]. split; [eauto|]. cbv zeta.
  set (es := filter (usable a) (filter (selected g tab a) tab)).
  assert (Hes : (if a_zred a then
               if Nat.eqb (List.length (filter has_z (filter (selected g tab a) tab))) 0 then Err ValueError
               else Ok (filter has_z (filter (selected g tab a) tab))
             else Ok (filter (selected g tab a) tab)) = Ok es \/
             exists x, (if a_zred a then
               if Nat.eqb (List.length (filter has_z (filter (selected g tab a) tab))) 0 then Err ValueError
               else Ok (filter has_z (filter (selected g tab a) tab))
             else Ok (filter (selected g tab a) tab)) = Err x).
  { unfold es, usable. destruct (a_zred a).
    - destruct (Nat.eqb _ 0); [right; eauto|left; reflexivity].
    - left. rewrite (filter_all_true _ (filter (selected g tab a) tab)) by reflexivity. reflexivity. }
  destruct Hes as [Hes|(x & Hes)]; rewrite Hes in H; cbn [bind] in H; [|discriminate].
  apply match_nonempty in H. destruct H as [Hne H]. split; [exact Hne|].
  assert (Hload : mapM (load (a_zred a)) es = Ok (map (with_zred (a_zred a)) es)).
  { apply mapM_map. intros e He. unfold es in He. apply filter_In in He. destruct He as [He1 Hu].
    apply filter_In in He1. destruct He1 as [Hin _]. destruct (Hc e Hin) as [H1 H2]. apply load_ok; auto.
    intros Hz. unfold usable in Hu. rewrite Hz in Hu. exact Hu. }
  rewrite Hload in H. cbn [bind] in H. fold (trimming a) in H.
  destruct (a_temp a).
  - destruct (mapM _ _) as [kept|] eqn:Ek; cbn [bind] in H; [|discriminate]. injection H as <-. exists kept. auto.
  - destruct (trimming a); [exact H|congruence].
Qed.

(** ** Flattening *)
Lemma concat_everything usez tab (P : entry -> bool) :
  List.concat (map (with_zred usez) (filter P tab)) =
  map snd (filter (fun x => P (fst x)) (everything usez tab)).
Proof.
  unfold everything. induction tab as [|e tab IH]; cbn; [reflexivity|].
  rewrite filter_app, map_app, <- IH. destruct (P e) eqn:E; cbn.
  - f_equal. rewrite filter_all_true.
    + rewrite map_map. cbn. symmetry. apply map_id.
    + intros x Hx. apply in_map_iff in Hx. destruct Hx as (o & <- & _). exact E.
  - replace (filter _ _) with (@nil (entry * orow)); [reflexivity|].
    symmetry. induction (with_zred usez e) as [|o l IHl]; cbn; [reflexivity|]. rewrite E. exact IHl.
Qed.

Lemma everything_unusable a tab :
  filter (fun x => usable a (fst x)) (everything (a_zred a) tab) = everything (a_zred a) tab.
Proof.
  apply filter_all_true. intros (e, o) Hin. unfold everything in Hin. apply in_concat in Hin.
  destruct Hin as (l & Hl & Ho). apply in_map_iff in Hl. destruct Hl as (e' & <- & _).
  apply in_map_iff in Ho. destruct Ho as (o' & [= -> ->] & Ho). cbn. unfold usable, has_z, with_zred in *.
  destruct (a_zred a); [|reflexivity]. destruct (ezfile e); [reflexivity|contradiction].
Qed.

Lemma filter_map_snd {A B} (f : B -> bool) (l : list (A * B)) :
  filter f (map snd l) = map snd (filter (fun x => f (snd x)) l).
Proof. induction l as [|x l IH]; cbn; [reflexivity|]. destruct (f (snd x)); cbn; rewrite IH; reflexivity. Qed.

Lemma parts_flat g tab a :
  List.concat (map (with_zred (a_zred a)) (filter (usable a) (filter (selected g tab a) tab))) =
  map snd (filter (fun x => selected g tab a (fst x)) (everything (a_zred a) tab)).
Proof.
  rewrite filter_filter. rewrite concat_everything. f_equal.
  rewrite <- (everything_unusable a tab) at 2. rewrite filter_filter. apply filter_ext. intros x. apply andb_comm.
Qed.

Lemma in_everything usez tab e o : In (e, o) (everything usez tab) ->
  In e tab /\ In (fst o) (erows e).
Proof.
  unfold everything. intros Hin. apply in_concat in Hin.
  destruct Hin as (l & Hl & Ho). apply in_map_iff in Hl. destruct Hl as (e' & <- & He).
  apply in_map_iff in Ho. destruct Ho as (o' & [= -> ->] & Ho). split; [exact He|].
  unfold with_zred in Ho. destruct usez.
  - destruct (ezfile e); [|contradiction]. destruct o as (r, z). apply in_combine_l in Ho. exact Ho.
  - apply in_map_iff in Ho. destruct Ho as (r & <- & Hr). exact Hr.
Qed.

Lemma one_of_length (l : list Z) : Nat.eqb (List.length l) 0 = false ->
  (negb (Nat.eqb (List.length l) 0) && negb (Nat.eqb (List.length l) 1)) = false -> Nat.eqb (List.length l) 1 = true.
Proof. intros H. rewrite H. cbn. rewrite negb_false_iff. auto. Qed.

(** C10, plain reading *)
Lemma from_galfile_region g nt tab a r :
  consistent tab -> border_covered g tab a -> a_temp a = false ->
  from_galfile g nt tab a = Ok r ->
  r = map snd (filter (requested g a) (everything (a_zred a) tab)).
Proof.
  intros Hc Hb Ht H. apply from_galfile_summary in H; [|exact Hc]. destruct H as (Hck & (idx & Hidx) & Hne & H).
  rewrite Ht in H. cbv zeta in H. rewrite parts_flat in H.
  unfold trimming in H. unfold requested.
  destruct (Nat.eqb (List.length (a_hpix a)) 0 || Nat.eqb (a_nside a) 0) eqn:E0.
  - assert (E1 : Nat.eqb (List.length (a_hpix a)) 1 && Nat.ltb 0 (a_nside a) = false).
    { apply orb_true_iff in E0. destruct E0 as [E|E]; apply Nat.eqb_eq in E; rewrite E; [reflexivity|].
      cbn. apply andb_false_r. }
    rewrite E1 in H. cbn [andb] in H. rewrite H. f_equal. apply filter_ext_in. intros (e, o) _.
    unfold selected. rewrite E0. reflexivity.
  - apply orb_false_iff in E0. destruct E0 as [Eh En].
    assert (En' : Nat.ltb 0 (a_nside a) = true) by (apply Nat.ltb_lt; apply Nat.eqb_neq in En; lia).
    rewrite En' in H.
    destruct (Qlt_bool 0 (a_border a)) eqn:Eb.
    + assert (E1 : Nat.eqb (List.length (a_hpix a)) 1 = true).
      { unfold check_args in Hck. rewrite Eb in Hck. destruct (Qlt_bool (a_border a) 0); [discriminate|].
        destruct (_ && existsb _ _); [discriminate|]. cbn [andb] in Hck.
        destruct (negb (Nat.eqb (List.length (a_hpix a)) 0) && negb (Nat.eqb (List.length (a_hpix a)) 1)) eqn:E; [discriminate|].
        apply one_of_length; assumption. }
      rewrite E1 in H. cbn [andb] in H. apply trim_ok in H. rewrite H, filter_map_snd, filter_filter.
      f_equal. apply filter_ext_in. intros (e, o) Hin. cbn [fst snd].
      destruct (is_in (pix512 g (rpos (fst o))) (cutpix g)) eqn:Ei; [|apply andb_false_r].
      rewrite andb_true_r. apply in_everything in Hin. destruct Hin as [He Ho].
      unfold selected. rewrite Eh, En, Eb. cbn [orb]. apply is_in_iff. apply in_or_app.
      destruct (Hb e (fst o) He Ho) as [Hu|Hu]; [apply is_in_iff, Ei| |right; exact Hu].
      left. apply in_map. apply filter_In. split; [exact He|]. apply is_in_iff, Hu.
    + rewrite andb_false_r in H. rewrite H. f_equal. apply filter_ext_in. intros (e, o) _. cbn [fst].
      unfold selected. rewrite Eh, En, Eb. reflexivity.
Qed.

(** C10, the temporary-file path returns what reading and cutting would *)
Lemma mapM_trim g a parts :
  trimming a = false \/ (NoDup (cutpix g) /\ cutpix g <> []) ->
  mapM (fun p => let u := filter (cut a) p in
        match u with [] => Ok [] | _ => if trimming a then trim g u else Ok u end) parts =
  Ok (map (fun p => filter (fun o => cut a o && (if trimming a then is_in (pix512 g (rpos (fst o))) (cutpix g) else true)) p) parts).
Proof.
  intros H. apply mapM_map. intros p _. cbv zeta.
  assert (Hf : filter (fun o => cut a o && (if trimming a then is_in (pix512 g (rpos (fst o))) (cutpix g) else true)) p
     = filter (fun o => if trimming a then is_in (pix512 g (rpos (fst o))) (cutpix g) else true) (filter (cut a) p))
    by (rewrite filter_filter; reflexivity).
  rewrite Hf. destruct (filter (cut a) p) as [|o l] eqn:E; [reflexivity|]. rewrite <- E.
  destruct (trimming a).
  - destruct H as [H|[H1 H2]]; [discriminate|].
    destruct (trim_succeeds g (filter (cut a) p) H1 H2) as (r & Hr); [rewrite E; discriminate|].
    rewrite Hr. f_equal. apply trim_ok, Hr.
  - f_equal. symmetry. apply filter_all_true. reflexivity.
Qed.

Lemma concat_filter {A} (f : A -> bool) ls : List.concat (map (filter f) ls) = filter f (List.concat ls).
Proof. induction ls as [|l ls IH]; cbn; [reflexivity|]. rewrite filter_app, IH. reflexivity. Qed.


Lemma tempfile_equiv g nt tab a r :
  consistent tab ->
  from_galfile g nt tab (set_temp a false) = Ok r ->
  from_galfile g nt tab (set_temp a true) = Ok (filter (cut a) r).
Proof.
  intros Hc H. pose proof H as H0. apply from_galfile_summary in H; [|exact Hc].
  destruct H as (Hck & (idx & Hidx) & Hne & H). cbv zeta in H.
  cbn [a_temp set_temp] in H. unfold from_galfile in *.
  change (check_args g nt (set_temp a true)) with (check_args g nt (set_temp a false)).
  change (get_subpixel_indices g tab (set_temp a true)) with (get_subpixel_indices g tab (set_temp a false)).
  rewrite Hck, Hidx in *. cbn [bind] in *.
  change (a_zred (set_temp a true)) with (a_zred (set_temp a false)).
  destruct (if a_zred (set_temp a false) then _ else _) as [es|] eqn:Ees; cbn [bind] in *; [|discriminate].
  apply match_nonempty in H0. destruct H0 as [Hne' H0].
  destruct (mapM (load (a_zred (set_temp a false))) es) as [parts|] eqn:El; cbn [bind] in *; [|discriminate].
  destruct es as [|e0 es0]; [congruence|].
  cbn [a_temp set_temp a_hpix a_nside a_border] in *.
  change (Nat.eqb (List.length (a_hpix a)) 1 && Nat.ltb 0 (a_nside a) && Qlt_bool 0 (a_border a)) with (trimming a) in *.
  change (fun p : list orow => match filter (cut (set_temp a true)) p with
            | [] => Ok [] | _ :: _ => if trimming a then trim g (filter (cut (set_temp a true)) p) else Ok (filter (cut (set_temp a true)) p) end)
    with (fun p : list orow => let u := filter (cut a) p in match u with
            | [] => Ok [] | _ :: _ => if trimming a then trim g u else Ok u end).
  rewrite mapM_trim.
  - cbn [bind]. f_equal. rewrite concat_filter. destruct (trimming a).
    + apply trim_ok in H0. rewrite H0, filter_filter. apply filter_ext. intros o. apply andb_comm.
    + injection H0 as <-. apply filter_ext. intros o. apply andb_true_r.
  - destruct (trimming a) eqn:Et; [|auto]. right. unfold trim, eu_match in H0.
    destruct (cutpix g) as [|z l]; [discriminate|]. split; [|discriminate].
    destruct (_ || _); [discriminate|]. destruct (nodupZ (z :: l)) eqn:En; [|discriminate]. apply nodupZ_iff, En.
Qed.

(** C11 *)
Lemma negative_border g nt tab a : (a_border a < 0)%Q -> from_galfile g nt tab a = Err ValueError.
Proof.
  intros H. unfold from_galfile, check_args. apply Qlt_bool_iff in H. rewrite H. reflexivity.
Qed.
Lemma multi_border g nt tab a :
  (0 < a_border a)%Q -> 1 < List.length (a_hpix a) ->
  (forall h, In h (a_hpix a) -> (0 <= h < npix_of g)%Z) ->
  from_galfile g nt tab a = Err NotImplementedError.
Proof.
  intros H1 H2 H3. unfold from_galfile, check_args.
  assert (E1 : Qlt_bool (a_border a) 0 = false) by (apply Qlt_bool_false, Qlt_le_weak, H1).
  assert (E2 : existsb (fun h => (h <? 0)%Z || (npix_of g <=? h)%Z) (a_hpix a) = false).
  { destruct (existsb _ _) eqn:E; [|reflexivity]. apply existsb_exists in E. destruct E as (h & Hh & E).
    specialize (H3 h Hh). lia. }
  apply Qlt_bool_iff in H1. rewrite E1, E2, andb_false_r, H1. cbn [andb].
  destruct (Nat.eqb_spec (List.length (a_hpix a)) 0); [lia|]. destruct (Nat.eqb_spec (List.length (a_hpix a)) 1); [lia|].
  reflexivity.
Qed.
Lemma nside_too_big g nt tab a :
  (0 <= a_border a)%Q -> List.length (a_hpix a) <= 1 ->
  (forall h, In h (a_hpix a) -> (0 <= h < npix_of g)%Z) -> nt < a_nside a ->
  from_galfile g nt tab a = Err ValueError.
Proof.
  intros H1 H2 H3 H4. unfold from_galfile, check_args.
  assert (E1 : Qlt_bool (a_border a) 0 = false) by (apply Qlt_bool_false, H1).
  assert (E2 : existsb (fun h => (h <? 0)%Z || (npix_of g <=? h)%Z) (a_hpix a) = false).
  { destruct (existsb _ _) eqn:E; [|reflexivity]. apply existsb_exists in E. destruct E as (h & Hh & E).
    specialize (H3 h Hh). lia. }
  rewrite E1, E2, andb_false_r.
  assert (E3 : negb (Nat.eqb (List.length (a_hpix a)) 0) && negb (Nat.eqb (List.length (a_hpix a)) 1) = false).
  { destruct (List.length (a_hpix a)) as [|[|n]]; [reflexivity|reflexivity|lia]. }
  rewrite <- andb_assoc, E3, andb_false_r. apply Nat.ltb_lt in H4. rewrite H4. reflexivity.
Qed.
(** invalid requests never return galaxies *)
Lemma invalid_never_ok g nt tab a r :
  from_galfile g nt tab a = Ok r ->
  (0 <= a_border a)%Q /\
  (0 < a_nside a -> forall h, In h (a_hpix a) -> (0 <= h < npix_of g)%Z) /\
  ((0 < a_border a)%Q -> List.length (a_hpix a) <= 1) /\
  a_nside a <= nt /\
  (exists e, In e tab /\ (a_zred a = true -> ezfile e <> None) /\
     (a_hpix a <> [] -> 0 < a_nside a -> ~ (0 < a_border a)%Q -> In (up g (ehpix e)) (a_hpix a))).
Proof.
  unfold from_galfile, check_args.
  destruct (Qlt_bool (a_border a) 0) eqn:E1; [discriminate|].
  destruct (_ && existsb _ _) eqn:E2; [discriminate|].
  destruct (_ && negb (Nat.eqb _ 1)) eqn:E3; [discriminate|].
  destruct (Nat.ltb nt (a_nside a)) eqn:E4; [discriminate|]. cbn [bind].
  destruct (get_subpixel_indices g tab a) as [idx|] eqn:Eg; cbn [bind]; [|discriminate].
  rewrite (gsi_ok _ _ _ _ Eg). intros H.
  split; [apply Qlt_bool_false, E1|]. split.
  { intros Hn h Hh. apply Nat.ltb_lt in Hn. rewrite Hn in E2. cbn [andb] in E2.
    destruct (Z.ltb_spec h 0), (Z.leb_spec (npix_of g) h); try lia; exfalso;
    assert (Ex : existsb (fun h => (h <? 0)%Z || (npix_of g <=? h)%Z) (a_hpix a) = true)
      by (apply existsb_exists; exists h; split; [exact Hh|lia]); congruence. }
  split.
  { intros Hb. apply Qlt_bool_iff in Hb. rewrite Hb in E3. cbn [andb] in E3.
    destruct (List.length (a_hpix a)) as [|[|n]]; [lia|lia|discriminate]. }
  split; [apply Nat.ltb_ge in E4; lia|].
  assert (Hex : filter (usable a) (filter (selected g tab a) tab) <> []).
  { unfold usable. destruct (a_zred a).
    - destruct (Nat.eqb (List.length (filter has_z (filter (selected g tab a) tab))) 0) eqn:E; [discriminate|].
      intros E'. change (filter has_z (filter (selected g tab a) tab) = []) in E'. rewrite E' in E. discriminate.
    - cbn [bind] in H. apply match_nonempty in H. destruct H as [H _].
      rewrite (filter_all_true _ (filter (selected g tab a) tab)) by reflexivity. exact H. }
  destruct (filter (usable a) _) as [|e l] eqn:E; [congruence|].
  assert (Hin : In e (filter (usable a) (filter (selected g tab a) tab))) by (rewrite E; left; reflexivity).
  apply filter_In in Hin. destruct Hin as [Hin Hu]. apply filter_In in Hin. destruct Hin as [Hin Hs].
  exists e. split; [exact Hin|]. split.
  - intros Hz. unfold usable, has_z in Hu. rewrite Hz in Hu. destruct (ezfile e); [discriminate|discriminate].
  - intros Hh Hn Hb. unfold selected in Hs.
    destruct (Nat.eqb_spec (List.length (a_hpix a)) 0) as [E0|_]; [destruct (a_hpix a); [congruence|discriminate]|].
    destruct (Nat.eqb_spec (a_nside a) 0); [lia|]. cbn [orb] in Hs.
    destruct (Qlt_bool 0 (a_border a)) eqn:Eb; [apply Qlt_bool_iff in Eb; contradiction|]. apply is_in_iff, Hs.
Qed.

Lemma cut_iff a o : cut a o = true <-> within_cuts a o.
Proof.
  unfold cut, within_cuts. rewrite !andb_true_iff, !Qlt_bool_iff.
  destruct (a_zred a).
  - split.
    + intros [H1 H2]. split; [exact H1|]. intros _. destruct (snd o) as [z|]; [|discriminate].
      exists z. split; [reflexivity|]. apply Qlt_bool_iff, H2.
    + intros [H1 H2]. split; [exact H1|]. destruct (H2 eq_refl) as (z & -> & Hz). apply Qlt_bool_iff, Hz.
  - split; intros [H1 H2]; (split; [exact H1|]); [discriminate|reflexivity].
Qed.
Lemma tempfile_cuts g nt tab a r :
  consistent tab ->
  from_galfile g nt tab (set_temp a false) = Ok r ->
  exists keep, (forall o, keep o = true <-> within_cuts a o) /\
    from_galfile g nt tab (set_temp a true) = Ok (filter keep r).
Proof.
  intros Hc H. exists (cut a). split; [apply cut_iff|]. eapply tempfile_equiv; eauto.
Qed.

Lemma eu_match_ok a1 a2 : a1 <> [] -> a2 <> [] -> NoDup a1 -> exists m, eu_match a1 a2 = Ok m.
Proof.
  intros H1 H2 H3. unfold eu_match. destruct a1; [congruence|]. destruct a2; [congruence|].
  apply nodupZ_iff in H3. rewrite H3. eexists. reflexivity.
Qed.

(** C10, when some requested galaxy can be read the read succeeds *)
Lemma from_galfile_succeeds g nt tab a x :
  consistent tab -> border_covered g tab a -> valid_request g nt a -> a_temp a = false ->
  In x (everything (a_zred a) tab) -> requested g a x = true ->
  exists r, from_galfile g nt tab a = Ok r.
Proof.
  intros Hc Hb (V1 & V2 & V3 & V4 & V5 & V6) Ht Hx Hr. destruct x as (e, o).
  pose proof Hx as Hx'. apply in_everything in Hx'. destruct Hx' as [He Ho].
  assert (Hck : check_args g nt a = Ok tt).
  { unfold check_args. rewrite (proj2 (Qlt_bool_false _ _) V1).
    replace (existsb _ (a_hpix a)) with false.
    2:{ symmetry. destruct (existsb _ _) eqn:E; [|reflexivity]. apply existsb_exists in E.
        destruct E as (h & Hh & E). specialize (V2 h Hh). lia. }
    rewrite andb_false_r.
    replace (_ && negb (Nat.eqb (List.length (a_hpix a)) 1)) with false.
    2:{ symmetry. destruct (Qlt_bool 0 (a_border a)) eqn:E; [|reflexivity]. apply Qlt_bool_iff in E. specialize (V4 E).
        destruct (List.length (a_hpix a)) as [|[|n]]; [reflexivity|reflexivity|lia]. }
    apply Nat.ltb_ge in V5. rewrite V5. reflexivity. }
  assert (Hgsi : exists idx, get_subpixel_indices g tab a = Ok idx).
  { unfold get_subpixel_indices. destruct (_ || _) eqn:E0; [eauto|]. apply orb_false_iff in E0.
    destruct E0 as [Eh En].
    assert (Hh : a_hpix a <> []) by (intros E; rewrite E in Eh; discriminate).
    assert (Htb : tab <> []) by (intros ->; contradiction).
    destruct (eu_match_ok (a_hpix a) (map (fun e => up g (ehpix e)) tab)) as (m & Em); auto.
    { destruct tab; [congruence|discriminate]. }
    rewrite Em. cbn [bind]. destruct (eu_match_filter (a_hpix a) tab (fun e => up g (ehpix e)) m Em) as [Hsel _].
    destruct (Qlt_bool 0 (a_border a)) eqn:Eb; [|eauto].
    assert (E1 : Nat.eqb (List.length (a_hpix a)) 1 = true).
    { apply Qlt_bool_iff in Eb. specialize (V4 Eb). destruct (a_hpix a) as [|y [|y' l]]; [congruence|reflexivity|cbn in V4; lia]. }
    rewrite E1. cbn [negb].
    destruct (eu_match_ok (uniq (map ehpix (np_sel tab (snd m)) ++ bpix g)) (map ehpix tab)) as (m2 & Em2).
    - intros E. assert (Hin : is_in (ehpix e) (uniq (map ehpix (np_sel tab (snd m)) ++ bpix g)) = true).
      { rewrite uniq_in. apply is_in_iff, in_or_app. unfold requested in Hr. rewrite Eh, En, Eb in Hr. cbn [orb] in Hr.
        cbn [fst snd] in Hr. apply is_in_iff in Hr. destruct (Hb e (fst o) He Ho Hr) as [Hu|Hu]; [left|right; exact Hu].
        rewrite Hsel. apply in_map, filter_In. split; [exact He|]. apply is_in_iff, Hu. }
      rewrite E in Hin. discriminate.
    - destruct tab; [congruence|discriminate].
    - apply NoDup_nodup.
    - rewrite Em2. cbn [bind]. eauto. }
  destruct Hgsi as (idx & Hidx).
  assert (Hse : selected g tab a e = true).
  { unfold selected. unfold requested in Hr. destruct (_ || _); [reflexivity|]. destruct (Qlt_bool 0 (a_border a)); [|exact Hr].
    cbn [fst snd] in Hr. apply is_in_iff in Hr. apply is_in_iff, in_or_app.
    destruct (Hb e (fst o) He Ho Hr) as [Hu|Hu]; [left|right; exact Hu].
    apply in_map, filter_In. split; [exact He|]. apply is_in_iff, Hu. }
  set (es := filter (usable a) (filter (selected g tab a) tab)).
  assert (Hue : usable a e = true).
  { pose proof (everything_unusable a tab) as Hev. rewrite <- Hev in Hx. apply filter_In in Hx. apply Hx. }
  assert (Hees : In e es) by (unfold es; apply filter_In; split; [apply filter_In; split; assumption|exact Hue]).
  unfold from_galfile. rewrite Hck, Hidx. cbn [bind]. rewrite (gsi_ok _ _ _ _ Hidx).
  assert (E : (if a_zred a then
               if Nat.eqb (List.length (filter has_z (filter (selected g tab a) tab))) 0 then Err ValueError
               else Ok (filter has_z (filter (selected g tab a) tab))
             else Ok (filter (selected g tab a) tab)) = Ok es).
  { unfold es, usable in *. destruct (a_zred a).
    - destruct (Nat.eqb_spec (List.length (filter has_z (filter (selected g tab a) tab))) 0) as [E|_]; [|reflexivity].
      change (In e (filter has_z (filter (selected g tab a) tab))) in Hees.
      destruct (filter has_z (filter (selected g tab a) tab)); [contradiction|discriminate].
    - rewrite (filter_all_true _ (filter (selected g tab a) tab)) by reflexivity. reflexivity. }
  rewrite E. cbn [bind].
  assert (Hload : mapM (load (a_zred a)) es = Ok (map (with_zred (a_zred a)) es)).
  { apply mapM_map. intros e1 He1. unfold es in He1. apply filter_In in He1. destruct He1 as [He1 Hu].
    apply filter_In in He1. destruct He1 as [Hin _]. destruct (Hc e1 Hin) as [H1 H2]. apply load_ok; auto.
    intros Hz. unfold usable in Hu. rewrite Hz in Hu. exact Hu. }
  destruct es as [|e0 es0] eqn:Ees; [contradiction|]. rewrite <- Ees in *. rewrite Hload. cbn [bind]. rewrite Ht.
  fold (trimming a). destruct (trimming a) eqn:Etr; [|eauto].
  assert (Hcat : List.concat (map (with_zred (a_zred a)) es) =
            map snd (filter (fun x => selected g tab a (fst x)) (everything (a_zred a) tab))) by (rewrite Ees; unfold es in Ees; rewrite <- Ees; apply parts_flat).
  apply trim_succeeds; [exact V6| |].
  - unfold trimming in Etr. apply andb_true_iff in Etr. destruct Etr as [Etr Eb]. apply andb_true_iff in Etr.
    destruct Etr as [E1 En]. unfold requested in Hr. rewrite Eb in Hr.
    destruct (_ || _) eqn:E0; [|intros Ecut; rewrite Ecut in Hr; discriminate].
    apply Nat.eqb_eq in E1. apply Nat.ltb_lt in En. rewrite E1 in E0. cbn in E0. apply Nat.eqb_eq in E0. lia.
  - rewrite Hcat. intros Eem.
    assert (Hin : In o (map snd (filter (fun x => selected g tab a (fst x)) (everything (a_zred a) tab)))).
    { apply in_map_iff. exists (e, o). split; [reflexivity|]. apply filter_In. split; [exact Hx|exact Hse]. }
    rewrite Eem in Hin. contradiction.
Qed.

Lemma valid_checked g nt a : valid_request g nt a -> check_args g nt a = Ok tt.
Proof.
  intros (V1 & V2 & V3 & V4 & V5 & V6). unfold check_args. rewrite (proj2 (Qlt_bool_false _ _) V1).
  replace (existsb _ (a_hpix a)) with false.
  2:{ symmetry. destruct (existsb _ _) eqn:E; [|reflexivity]. apply existsb_exists in E.
      destruct E as (h & Hh & E). specialize (V2 h Hh). lia. }
  rewrite andb_false_r.
  replace (_ && negb (Nat.eqb (List.length (a_hpix a)) 1)) with false.
  2:{ symmetry. destruct (Qlt_bool 0 (a_border a)) eqn:E; [|reflexivity]. apply Qlt_bool_iff in E. specialize (V4 E).
      destruct (List.length (a_hpix a)) as [|[|n]]; [reflexivity|reflexivity|lia]. }
  apply Nat.ltb_ge in V5. rewrite V5. reflexivity.
Qed.

Lemma empty_region g nt tab a :
  tab <> [] -> valid_request g nt a -> (a_border a == 0)%Q -> a_hpix a <> [] -> 0 < a_nside a ->
  (forall e, In e tab -> ~ In (up g (ehpix e)) (a_hpix a)) ->
  from_galfile g nt tab a = Err (if a_zred a then ValueError else IndexError).
Proof.
  intros Ht V Hb Hh Hn No. unfold from_galfile. rewrite (valid_checked g nt a V). cbn [bind].
  destruct V as (V1 & V2 & V3 & V4 & V5 & V6). unfold get_subpixel_indices.
  replace (_ || _) with false.
  2:{ symmetry. apply orb_false_iff. split; apply Nat.eqb_neq; [destruct (a_hpix a); [congruence|discriminate]|lia]. }
  destruct (eu_match_ok (a_hpix a) (map (fun e => up g (ehpix e)) tab)) as (m & Em); auto.
  { destruct tab; [congruence|discriminate]. }
  rewrite Em. cbn [bind]. replace (Qlt_bool 0 (a_border a)) with false.
  2:{ symmetry. apply Qlt_bool_false. rewrite Hb. apply Qle_refl. }
  cbn [bind]. destruct (eu_match_filter (a_hpix a) tab (fun e => up g (ehpix e)) m Em) as [Hsel _].
  rewrite Hsel. replace (filter _ tab) with (@nil entry).
  2:{ symmetry. destruct (filter _ tab) as [|e l] eqn:E; [reflexivity|]. exfalso.
      assert (I : In e (e :: l)) by (left; reflexivity). rewrite <- E in I. apply filter_In in I. destruct I as [I1 I2].
      apply is_in_iff in I2. exact (No e I1 I2). }
  destruct (a_zred a); reflexivity.
Qed.
