From Coq Require Import Permutation.
From Verif.Base Require Import Py PyLemmas Fn.
From Verif.Model Require Import Maker Galfile Ingest.
From Verif.Spec Require Import Maker Galfile Ingest.
From Verif.Proofs Require Import Maker Galfile.
From Coq Require Import Lia List. Import ListNotations.

(** *** Sorting galaxies into pixels loses none *)
Lemma split_perm {A} (f : A -> bool) l : Permutation l (filter (fun x => negb (f x)) l ++ filter f l).
Proof.
  induction l as [|a l IH]; cbn; [constructor|]. destruct (f a); cbn; [|constructor; exact IH].
  rewrite IH at 1. apply Permutation_middle.
Qed.
Lemma bins_perm {A} (f : A -> nat) n : forall l, (forall x, In x l -> f x < n) ->
  Permutation (List.concat (map (fun p => filter (fun x => Nat.eqb (f x) p) l) (seq 0 n))) l.
Proof.
  induction n as [|n IH]; intros l H.
  - destruct l as [|a l]; [constructor|]. specialize (H a (or_introl eq_refl)). lia.
  - rewrite seq_S, map_app, concat_app. cbn [map List.concat plus]. rewrite app_nil_r.
    etransitivity; [|symmetry; apply (split_perm (fun x => Nat.eqb (f x) n) l)]. apply Permutation_app; [|reflexivity].
    set (l' := filter (fun x => negb (Nat.eqb (f x) n)) l).
    rewrite <- (IH l'). 2:{ intros x Hx. apply filter_In in Hx. destruct Hx as [Hx Hn]. apply H in Hx. apply negb_true_iff, Nat.eqb_neq in Hn. lia. }
    apply Permutation_refl'. f_equal. apply map_ext_in. intros p Hp. apply in_seq in Hp. unfold l'. rewrite filter_filter. apply filter_ext. intros x.
    destruct (Nat.eqb_spec (f x) p); [|rewrite andb_false_r; reflexivity]. subst p. destruct (Nat.eqb_spec (f x) n); [lia|reflexivity].
Qed.
Lemma concat_perm {A B} (f h : A -> list B) l : (forall x, In x l -> Permutation (f x) (h x)) -> Permutation (List.concat (map f l)) (List.concat (map h l)).
Proof.
  induction l as [|a l IH]; intros H; cbn; [constructor|]. apply Permutation_app; [apply H; left; reflexivity|apply IH; intros; apply H; right; assumption].
Qed.
Lemma filter_perm' {A} (f : A -> bool) l m : Permutation l m -> Permutation (filter f l) (filter f m).
Proof.
  induction 1; cbn; [constructor| | |etransitivity; eauto].
  - destruct (f x); [constructor; assumption|assumption].
  - destruct (f x), (f y); try reflexivity. constructor.
Qed.
Lemma filter_map' {A B} (h : A -> B) (f : B -> bool) l : filter f (map h l) = map h (filter (fun x => f (h x)) l).
Proof. induction l as [|a l IH]; cbn; [reflexivity|]. destruct (f (h a)); cbn; rewrite IH; reflexivity. Qed.
Lemma filter_concat' {A} (f : A -> bool) ls : filter f (List.concat ls) = List.concat (map (filter f) ls).
Proof. induction ls as [|l ls IH]; cbn; [reflexivity|]. rewrite filter_app, IH. reflexivity. Qed.

Section Ing.
Variable e : env.
Hypothesis Hs : sound e.

Lemma taken_ok cs : taken cs (map (fun c => if chunk_ok e c then Ok tt else Err RuntimeError) cs) = List.concat (filter (chunk_ok e) cs).
Proof. induction cs as [|c cs IH]; cbn; [reflexivity|]. destruct (chunk_ok e c); cbn; rewrite IH; reflexivity. Qed.

(** the pixels with files, after finalize: galaxies as before, up to ids *)
Lemma finalized_files cs s1 rs s2 r : append_many e fresh cs = (s1, rs) -> finalize_catalog e s1 = (s2, r) ->
  exists L, Maker.master s2 = Some (map (fun p => (p, ngals s1 p)) L) /\ NoDup L /\ (forall p, In p L -> p < npix e) /\
    (forall p, In p L -> ngals s1 p = List.length (stored s1 p)) /\
    (r = Ok tt -> forall p, map gdat (stored s2 p) = map gdat (stored s1 p)) /\
    (forall f : nat -> list Z, (forall p, stored s1 p = [] -> f p = []) -> List.concat (map f L) = List.concat (map f (seq 0 (npix e)))) /\
    (forall p, Permutation (stored s1 p) (belongs e p (taken cs rs))) /\
    (r = Ok tt \/ genids e = false).
Proof.
  intros Ha Hf. destruct Hs as [H1 H2].
  destruct (append_many_inv e H1 H2 cs fresh [] (inv_fresh e)) as (s' & E & HI). rewrite E in Ha. injection Ha as <- <-.
  destruct (serial_conservation e H1 H2 cs) as (s'' & E' & HC). rewrite E in E'. injection E' as <-.
  exists (filter (fun p => negb (Nat.eqb (ngals s' p) 0)) (seq 0 (npix e))).
  assert (M : Maker.master s2 = Some (master_rows e s') /\ (r = Ok tt -> forall p, map gdat (stored s2 p) = map gdat (stored s' p)) /\ (r = Ok tt \/ genids e = false)).
  { destruct (genids e) eqn:Eg.
    - destruct (finalize_gen e s' _ Eg HI) as (s3 & E3 & _ & Hm & Hd & _). rewrite E3 in Hf. injection Hf as <- <-. auto.
    - pose proof (finalize_nogen e s' _ Eg HI) as Hn. rewrite Hf in Hn. destruct Hn as (F & Hm & _). split; [exact Hm|]. split; [|auto]. intros _ p. unfold stored. rewrite F. reflexivity. }
  destruct M as (M1 & M2 & M3). split; [exact M1|]. split; [apply NoDup_filter, seq_NoDup|].
  split; [intros p Hp; apply filter_In in Hp; destruct Hp as [Hp _]; apply in_seq in Hp; lia|].
  split; [intros p _; apply HC|]. split; [exact M2|].
  split.
  { intros f Hf0. generalize (seq 0 (npix e)) as L. induction L as [|p L IH]; cbn; [reflexivity|]. destruct (Nat.eqb_spec (ngals s' p) 0) as [N|N]; cbn; [|rewrite IH; reflexivity].
    rewrite Hf0; [exact IH|]. destruct (HC p) as (_ & _ & X & _). rewrite N in X. destruct (stored s' p); [reflexivity|discriminate]. }
  split; [|exact M3]. intros p. rewrite taken_ok. apply HC.
Qed.

(** all galaxies of the requested region, over the pixel files *)
Lemma region_perm cs s1 rs s2 (P : Z -> Z -> bool) : append_many e fresh cs = (s1, rs) -> finalize_catalog e s1 = (s2, Ok tt) ->
  forall ph, Permutation
    (List.concat (map (fun x => map rdat (filter (fun y => P (ehpix x) (rdat y)) (erows x))) (pixel_files ph s2)))
    (map gdat (filter (fun x => inmask e (gdat x) && P (Z.of_nat (pixof e (gdat x))) (gdat x)) (taken cs rs))).
Proof.
  intros Ha Hf ph. destruct (finalized_files cs s1 rs s2 _ Ha Hf) as (L & M & ND & LT & NG & D & C & B & _). specialize (D eq_refl).
  unfold pixel_files. rewrite M, !map_map. cbn [fst snd].
  rewrite (map_ext _ (fun p => filter (P (Z.of_nat p)) (map gdat (stored s1 p)))).
  2:{ intros p. unfold pixel_entry. cbn [fst snd ehpix erows]. rewrite <- D. unfold stored. rewrite !filter_map', !map_map. cbn. reflexivity. }
  rewrite C by (intros p ->; reflexivity).
  rewrite (concat_perm _ (fun p => map gdat (filter (fun x => Nat.eqb (pixof e (gdat x)) p)
      (filter (fun x => inmask e (gdat x) && P (Z.of_nat (pixof e (gdat x))) (gdat x)) (taken cs rs))))).
  2:{ intros p _. rewrite filter_map'. apply Permutation_map. rewrite (filter_perm' _ _ _ (B p)). unfold belongs. rewrite !filter_filter. apply Permutation_refl'. apply filter_ext. intros x.
      destruct (Nat.eqb_spec (pixof e (gdat x)) p) as [<-|N]; [|rewrite !andb_false_r; reflexivity]. rewrite !andb_true_r. reflexivity. }
  rewrite <- (map_map (fun p => filter (fun x => Nat.eqb (pixof e (gdat x)) p) (filter (fun x => inmask e (gdat x) && P (Z.of_nat (pixof e (gdat x))) (gdat x)) (taken cs rs))) (map gdat)).
  rewrite <- concat_map. apply Permutation_map. apply bins_perm. intros x _. apply Hs.
Qed.

Lemma files_regular cs s1 rs s2 ph nt : append_many e fresh cs = (s1, rs) -> finalize_catalog e s1 = (s2, Ok tt) -> 0 < nt ->
  regular (Z.of_nat (npix e)) nt (pixel_files ph s2) /\ consistent (pixel_files ph s2).
Proof.
  intros Ha Hf Hn. destruct (finalized_files cs s1 rs s2 _ Ha Hf) as (L & M & ND & LT & NG & D & C & B & _). specialize (D eq_refl).
  assert (X : forall x, In x (pixel_files ph s2) -> exists p, In p L /\ x = pixel_entry ph s2 (p, ngals s1 p)).
  { intros x Hx. unfold pixel_files in Hx. rewrite M in Hx. apply in_map_iff in Hx. destruct Hx as (pn & <- & Hx). apply in_map_iff in Hx. destruct Hx as (p & <- & Hp). eauto. }
  assert (Y : forall p, In p L -> List.length (erows (pixel_entry ph s2 (p, ngals s1 p))) = ngals s1 p).
  { intros p Hp. unfold pixel_entry. cbn [erows fst snd]. rewrite map_length. rewrite (NG p Hp). change (match files s2 p with Some l => l | None => [] end) with (stored s2 p). rewrite <- (map_length gdat (stored s2 p)), D, map_length. reflexivity. }
  split; [split; [exact Hn|split]|].
  - unfold pixel_files. rewrite M, !map_map. cbn [pixel_entry ehpix fst]. apply FinFun.Injective_map_NoDup; [intros a b; apply Nat2Z.inj|exact ND].
  - intros x Hx. destruct (X x Hx) as (p & Hp & ->). split; [cbn; specialize (LT p Hp); lia|]. apply Y, Hp.
  - intros x Hx. destruct (X x Hx) as (p & Hp & ->). split; [apply Y, Hp|]. discriminate.
Qed.

Lemma files_rows ph s2 x y : In x (pixel_files ph s2) -> In y (erows x) -> y = row_of ph (rdat y).
Proof.
  unfold pixel_files. destruct (Maker.master s2); [|contradiction]. intros Hx Hy. apply in_map_iff in Hx. destruct Hx as (pn & <- & _). cbn in Hy. apply in_map_iff in Hy. destruct Hy as (g & <- & _). reflexivity.
Qed.
Lemma files_pix cs s1 rs s2 ph x y : append_many e fresh cs = (s1, rs) -> finalize_catalog e s1 = (s2, Ok tt) ->
  In x (pixel_files ph s2) -> In y (erows x) -> ehpix x = Z.of_nat (pixof e (rdat y)).
Proof.
  intros Ha Hf Hx Hy. destruct (finalized_files cs s1 rs s2 _ Ha Hf) as (L & M & ND & LT & NG & D & C & B & _). specialize (D eq_refl).
  unfold pixel_files in Hx. rewrite M in Hx. apply in_map_iff in Hx. destruct Hx as (pn & <- & Hx). apply in_map_iff in Hx. destruct Hx as (p & <- & Hp).
  unfold pixel_entry in *. cbn [erows fst snd ehpix] in *. change (match files s2 p with Some l => l | None => [] end) with (stored s2 p) in Hy.
  rewrite <- (map_map gdat (row_of ph)), D in Hy. apply in_map_iff in Hy. destruct Hy as (d & <- & Hd). apply in_map_iff in Hd. destruct Hd as (g & <- & Hg).
  cbn. apply (Permutation_in _ (B p)) in Hg. unfold belongs in Hg. apply filter_In in Hg. destruct Hg as [_ Hg]. apply andb_true_iff in Hg. destruct Hg as [_ Hg]. apply Nat.eqb_eq in Hg. rewrite Hg. reflexivity.
Qed.
Lemma files_border cs s1 rs s2 ph g a : append_many e fresh cs = (s1, rs) -> finalize_catalog e s1 = (s2, Ok tt) ->
  border_sound e ph g a -> border_covered g (pixel_files ph s2) a.
Proof.
  intros Ha Hf HB x y Hx Hy Hc. rewrite (files_pix _ _ _ _ _ _ _ Ha Hf Hx Hy). rewrite (files_rows _ _ _ _ Hx Hy) in Hc. cbn in Hc. apply HB, Hc.
Qed.
End Ing.

(** *** Flat forms *)
Lemma everything_rows usez tab (P : entry -> row -> bool) :
  map (fun x => fst (snd x)) (filter (fun x => P (fst x) (fst (snd x))) (everything usez tab)) =
  List.concat (map (fun x => filter (P x) (map fst (with_zred usez x))) tab).
Proof.
  unfold everything. rewrite filter_concat', map_map, concat_map, map_map. f_equal. apply map_ext. intros x. rewrite filter_map', map_map. cbn. rewrite filter_map'. reflexivity.
Qed.
Definition req (g : geo) (a : args) (h : Z) (r : row) : bool :=
  if Nat.eqb (List.length (a_hpix a)) 0 || Nat.eqb (a_nside a) 0 then true
  else if Qlt_bool 0 (a_border a) then is_in (pix512 g (rpos r)) (cutpix g)
  else is_in (up g h) (a_hpix a).
Lemma requested_req g a x : requested g a x = req g a (ehpix (fst x)) (fst (snd x)).
Proof. reflexivity. Qed.
Lemma concat_map_map {A B C} (h : B -> C) (f : A -> list B) l : List.concat (map (fun x => map h (f x)) l) = map h (List.concat (map f l)).
Proof. rewrite concat_map, map_map. reflexivity. Qed.

Lemma map_rows ph l : (forall y, In y l -> y = row_of ph (rdat y)) -> l = map (row_of ph) (map rdat l).
Proof. induction l as [|y l IH]; intros H; cbn; [reflexivity|]. rewrite <- (H y (or_introl eq_refl)), <- IH by (intros; apply H; right; assumption). reflexivity. Qed.

Lemma wanted_P e ph g a x : wanted e ph g a x = inmask e (gdat x) && req g a (Z.of_nat (pixof e (gdat x))) (row_of ph (gdat x)).
Proof. reflexivity. Qed.

Lemma requested_perm e cs s1 rs s2 ph g a : sound e -> append_many e fresh cs = (s1, rs) -> finalize_catalog e s1 = (s2, Ok tt) ->
  Permutation (map (fun x => fst (snd x)) (filter (requested g a) (everything false (pixel_files ph s2))))
              (map (fun x => row_of ph (gdat x)) (filter (wanted e ph g a) (taken cs rs))).
Proof.
  intros Hs Ha Hf. rewrite (filter_ext _ _ (requested_req g a)). rewrite (everything_rows false _ (fun x r => req g a (ehpix x) r)).
  rewrite (map_ext_in _ (fun x => map (row_of ph) (map rdat (filter (fun y => req g a (ehpix x) (row_of ph (rdat y))) (erows x))))).
  2:{ intros x Hx. cbn [with_zred]. rewrite map_map. cbn [fst]. rewrite map_id. rewrite (filter_ext_in _ (fun y => req g a (ehpix x) (row_of ph (rdat y)))).
      - apply map_rows. intros y Hy. apply filter_In in Hy. apply (files_rows ph s2 x); tauto.
      - intros y Hy. rewrite <- (files_rows ph s2 x y Hx Hy). reflexivity. }
  rewrite concat_map_map. rewrite (region_perm e Hs cs s1 rs s2 (fun h d => req g a h (row_of ph d)) Ha Hf ph). rewrite map_map. apply Permutation_refl'. reflexivity.
Qed.

(** *** The run for redshifts *)
Lemma mapM_ok {A B} (f : A -> res B) l r : mapM f l = Ok r <-> Forall2 (fun x y => f x = Ok y) l r.
Proof.
  revert r. induction l as [|x l IH]; intros r; cbn.
  - split; [intros [= <-]; constructor|inversion 1; reflexivity].
  - split.
    + destruct (f x) as [y|] eqn:E; cbn; [|discriminate]. destruct (mapM f l) as [t|] eqn:Et; cbn; [|discriminate]. intros [= <-]. constructor; [exact E|]. apply IH. reflexivity.
    + inversion 1 as [|? y ? t Hy Ht]; subst. rewrite Hy. cbn. apply IH in Ht. rewrite Ht. reflexivity.
Qed.
Lemma mapM_err {A B} (f : A -> res B) l x er : In x l -> f x = Err er -> exists er', mapM f l = Err er'.
Proof.
  induction l as [|y l IH]; [intros []|]. intros [->|H] E; cbn.
  - rewrite E. cbn. eauto.
  - destruct (f y); cbn; [|eauto]. destruct (IH H E) as (er' & ->). cbn. eauto.
Qed.
Lemma mapM_fst {A B C} (f : A -> res B) (h : C -> A) l : mapM (fun o => f (h o)) l = mapM f (map h l).
Proof. induction l as [|x l IH]; cbn; [reflexivity|]. rewrite IH. reflexivity. Qed.

Lemma selected_in_run g tab a x : In x tab -> selected g tab a x = in_run g a x.
Proof.
  intros Hx. unfold selected, in_run. destruct (_ || _); [reflexivity|]. destruct (Qlt_bool 0 (a_border a)); cbn [andb]; [|rewrite orb_false_r; reflexivity].
  apply Bool.eq_iff_eq_true. rewrite orb_true_iff, !is_in_iff, in_app_iff, in_map_iff. split; intros [H|H]; auto; left.
  - destruct H as (y & E & Hy). apply filter_In in Hy. rewrite is_in_iff in Hy. rewrite <- E. tauto.
  - exists x. split; [reflexivity|]. apply filter_In. rewrite is_in_iff. auto.
Qed.

Lemma filter_one (tab : list entry) i e : NoDup (map ehpix tab) -> nth_error tab i = Some e ->
  filter (fun x => is_in (ehpix x) [ehpix e]) tab = [e].
Proof.
  revert i. induction tab as [|y tab IH]; intros i ND H; [destruct i; discriminate|]. cbn [map] in ND. inversion ND as [|? ? N1 N2]; subst. destruct i as [|i]; cbn in H.
  - injection H as ->. cbn [filter is_in existsb]. rewrite Z.eqb_refl. cbn [orb]. f_equal. destruct (filter _ tab) as [|z l] eqn:E; [reflexivity|exfalso].
    assert (Hz : In z (filter (fun x => is_in (ehpix x) [ehpix e]) tab)) by (rewrite E; left; reflexivity). apply filter_In in Hz. destruct Hz as [Hz Hq]. apply is_in_iff in Hq. destruct Hq as [Hq|[]]. apply N1. rewrite Hq. apply in_map, Hz.
  - cbn [filter]. assert (N : is_in (ehpix y) [ehpix e] = false). { destruct (is_in _ _) eqn:E; [|reflexivity]. exfalso. apply is_in_iff in E. destruct E as [E|[]]. apply N1. rewrite <- E. apply in_map. eapply nth_error_In; eauto. }
    rewrite N. apply (IH i); assumption.
Qed.

Lemma pixel_read npt nt tab i e : regular npt nt tab -> nth_error tab i = Some e ->
  from_galfile (pixel_geo npt) nt tab (pixel_args nt (ehpix e)) = Ok (map (fun r => (r, None)) (erows e)).
Proof.
  intros (Hn & ND & HR) Hi. pose proof (nth_error_In _ _ Hi) as He. destruct (HR e He) as [Hr Hl].
  assert (Hg : exists idx, get_subpixel_indices (pixel_geo npt) tab (pixel_args nt (ehpix e)) = Ok idx).
  { unfold get_subpixel_indices. cbn [pixel_args a_hpix a_nside a_border List.length Nat.eqb orb]. destruct (Nat.eqb_spec nt 0); [lia|].
    destruct (eu_match_ok [ehpix e] (map (fun x => up (pixel_geo npt) (ehpix x)) tab)) as (m & ->); [discriminate|destruct tab; [contradiction|discriminate]|constructor; [intros []|constructor]|]. cbn [bind]. change (Qlt_bool 0 0) with false. cbv iota. eauto. }
  destruct Hg as (idx & Hg). pose proof (gsi_ok _ _ _ _ Hg) as Hsel.
  assert (Hf : filter (selected (pixel_geo npt) tab (pixel_args nt (ehpix e))) tab = [e]).
  { rewrite <- (filter_one tab i e ND Hi). apply filter_ext. intros x. unfold selected. cbn [pixel_args a_hpix a_nside a_border List.length Nat.eqb orb pixel_geo up]. destruct (Nat.eqb_spec nt 0); [lia|]. reflexivity. }
  rewrite Hf in Hsel. unfold from_galfile.
  assert (Hck : check_args (pixel_geo npt) nt (pixel_args nt (ehpix e)) = Ok tt).
  { unfold check_args. cbn [pixel_args a_border a_nside a_hpix existsb pixel_geo npix_of]. change (Qlt_bool 0 0) with false. cbn [andb].
    destruct (Z.ltb_spec (ehpix e) 0); [lia|]. destruct (Z.leb_spec npt (ehpix e)); [lia|]. cbn [orb]. rewrite andb_false_r. rewrite Nat.ltb_irrefl. reflexivity. }
  rewrite Hck, Hg. cbn [bind]. rewrite Hsel. cbn [pixel_args a_zred a_temp bind mapM List.length a_hpix a_nside a_border]. unfold load, rows_assign. rewrite Hl, Nat.eqb_refl. cbn [bind].
  change (Qlt_bool 0 0) with false. rewrite andb_false_r. cbn [List.concat]. rewrite app_nil_r. reflexivity.
Qed.
Lemma worker_eq calc npt nt tab i e : regular npt nt tab -> nth_error tab i = Some e ->
  worker calc npt nt tab i = do z <- mapM calc (erows e); Ok (i, z).
Proof.
  intros R Hi. unfold worker. rewrite Hi, (pixel_read _ _ _ _ _ R Hi). cbn [bind]. rewrite mapM_fst, map_map. cbn [fst]. rewrite map_id. reflexivity.
Qed.

Lemma nth_put_z tab i z k : nth_error (put_z tab i z) k = if Nat.eqb k i then option_map (fun e => set_z e z) (nth_error tab k) else nth_error tab k.
Proof.
  revert i k. induction tab as [|e tab IH]; intros [|i] [|k]; cbn; try reflexivity.
  - destruct (Nat.eqb k i); reflexivity.
  - apply IH.
Qed.
Definition zset (o : option entry) (p : option (list zrow)) : option entry :=
  match o, p with Some e, Some z => Some (set_z e z) | _, _ => o end.
Lemma fill_ok ps : forall tab out, fill_table ps tab = Ok out ->
  (forall i z, In (i, z) ps -> forall i' z', In (i', z') ps -> i = i' -> z = z') ->
  forall k, nth_error out k = zset (nth_error tab k) (option_map snd (find (fun p => Nat.eqb (fst p) k) ps)).
Proof.
  induction ps as [|(i, z) ps IH]; intros tab out H U k; cbn in H.
  - injection H as <-. cbn. destruct (nth_error tab k); reflexivity.
  - destruct (nth_error tab i) as [e|] eqn:Ei; [|discriminate]. destruct (Nat.eqb _ _); [|discriminate].
    rewrite (IH _ _ H) by (intros i1 z1 A i2 z2 B; eapply U; right; eassumption). rewrite nth_put_z. cbn [find fst]. rewrite (Nat.eqb_sym i k). destruct (Nat.eqb_spec k i) as [->|N]; [|reflexivity].
    rewrite Ei. cbn [option_map snd]. destruct (find _ ps) as [(j, z')|] eqn:F; cbn; [|reflexivity].
    apply find_some in F. destruct F as [F1 F2]. cbn in F2. apply Nat.eqb_eq in F2. subst j. rewrite (U i z (or_introl eq_refl) i z' (or_intror F1) eq_refl). reflexivity.
Qed.
Lemma fill_succeeds ps : forall tab, (forall i z, In (i, z) ps -> exists e, nth_error tab i = Some e /\ List.length z = engals e) -> exists out, fill_table ps tab = Ok out.
Proof.
  induction ps as [|(i, z) ps IH]; intros tab H; cbn; [eauto|]. destruct (H i z (or_introl eq_refl)) as (e & Ei & L). rewrite Ei, L, Nat.eqb_refl.
  apply IH. intros j w Hj. destruct (H j w (or_intror Hj)) as (e' & Ej & L'). rewrite nth_put_z. destruct (Nat.eqb_spec j i) as [->|N]; [|eauto]. rewrite Ej. cbn. exists (set_z e' z). split; [reflexivity|exact L'].
Qed.

Lemma eu_match_where {A} a1 (l : list A) (f : A -> Z) m : eu_match a1 (map f l) = Ok m -> snd m = np_where (fun x => is_in (f x) a1) l.
Proof.
  unfold eu_match. destruct (_ || _); [discriminate|]. destruct (nodupZ a1); [|discriminate]. intros [= <-].
  rewrite match_from_snd, where_from_map. apply where_from_ext. intros; apply index_is_in.
Qed.
Lemma gsi_idx g tab a idx : get_subpixel_indices g tab a = Ok idx -> forall i, In i idx <-> exists e, nth_error tab i = Some e /\ in_run g a e = true.
Proof.
  intros H i. assert (X : In i idx <-> exists e, nth_error tab i = Some e /\ selected g tab a e = true).
  { revert H. unfold get_subpixel_indices, selected. destruct (_ || _) eqn:E0.
    { intros [= <-]. rewrite in_seq. split.
      - intros L. destruct (nth_error tab i) as [e|] eqn:E; [eauto|]. apply nth_error_None in E. lia.
      - intros (e & E & _). assert (nth_error tab i <> None) by congruence. apply nth_error_Some in H. lia. }
    destruct (eu_match (a_hpix a) _) as [m|] eqn:Em; cbn [bind]; [|discriminate].
    pose proof (eu_match_where (a_hpix a) tab (fun e => up g (ehpix e)) m Em) as W.
    destruct (Qlt_bool 0 (a_border a)).
    - destruct (negb _); [discriminate|]. destruct (eu_match (uniq _) _) as [m2|] eqn:Em2; cbn [bind]; [|discriminate].
      intros [= <-]. rewrite (eu_match_where _ tab ehpix m2 Em2). rewrite np_where_spec. destruct (eu_match_filter (a_hpix a) tab (fun e => up g (ehpix e)) m Em) as [Hsel _]. rewrite Hsel.
      split; intros (e & E & F); exists e; (split; [exact E|]); rewrite uniq_in in *; exact F.
    - intros [= <-]. rewrite W. apply np_where_spec. }
  rewrite X. split; intros (e & E & F); exists e; (split; [exact E|]); rewrite selected_in_run in *; eauto using nth_error_In.
Qed.

Definition ran (calc : row -> res zrow) (g : geo) (a : args) (e e' : entry) : Prop :=
  ehpix e' = ehpix e /\ engals e' = engals e /\ erows e' = erows e /\
  (in_run g a e = true -> exists zs, ezfile e' = Some zs /\ Forall2 (fun r z => calc r = Ok z) (erows e) zs) /\
  (in_run g a e = false -> ezfile e' = None).
Lemma Forall2_nth' {A B} (R : A -> B -> Prop) l m : List.length l = List.length m ->
  (forall k x y, nth_error l k = Some x -> nth_error m k = Some y -> R x y) -> Forall2 R l m.
Proof.
  revert m. induction l as [|x l IH]; intros [|y m] L H; try discriminate; constructor.
  - apply (H 0); reflexivity.
  - apply IH; [cbn in L; lia|]. intros k a b Ha Hb. apply (H (S k)); assumption.
Qed.
Lemma Forall2_In_r {A B} (R : A -> B -> Prop) l m y : Forall2 R l m -> In y m -> exists x, In x l /\ R x y.
Proof. induction 1 as [|a b l m R1 F IH]; intros []; [subst; exists a; cbn; auto|]. destruct (IH H) as (x & Hx & Hr). exists x. cbn; auto. Qed.
Lemma Forall2_In_l {A B} (R : A -> B -> Prop) l m x : Forall2 R l m -> In x l -> exists y, In y m /\ R x y.
Proof. induction 1 as [|a b l m R1 F IH]; intros []; [subst; exists b; cbn; auto|]. destruct (IH H) as (y & Hy & Hr). exists y. cbn; auto. Qed.
Lemma put_z_len tab i z : List.length (put_z tab i z) = List.length tab.
Proof. revert i. induction tab as [|e tab IH]; intros [|i]; cbn; auto. Qed.
Lemma fill_len ps : forall tab out, fill_table ps tab = Ok out -> List.length out = List.length tab.
Proof.
  induction ps as [|(i, z) ps IH]; intros tab out H; cbn in H; [congruence|]. destruct (nth_error tab i); [|discriminate]. destruct (Nat.eqb _ _); [|discriminate]. rewrite (IH _ _ H). apply put_z_len.
Qed.

Lemma zred_table calc g npt nt tab a out : regular npt nt tab -> zred_run calc g npt nt tab a = Ok out -> Forall2 (ran calc g a) tab out.
Proof.
  intros R. unfold zred_run. destruct (get_subpixel_indices g tab a) as [idx|] eqn:Eg; cbn [bind]; [|discriminate]. destruct (mapM _ idx) as [ps|] eqn:Em; cbn [bind]; [|discriminate]. intros Hf.
  pose proof (gsi_idx _ _ _ _ Eg) as GI. apply mapM_ok in Em.
  assert (W : forall i z, In (i, z) ps -> In i idx /\ exists e, nth_error tab i = Some e /\ mapM calc (erows e) = Ok z).
  { intros i z Hp. destruct (Forall2_In_r _ _ _ _ Em Hp) as (j & Hj & Hw). destruct (proj1 (GI j) Hj) as (e & Ej & _). rewrite (worker_eq _ _ _ _ _ _ R Ej) in Hw.
    destruct (mapM calc (erows e)) as [z'|] eqn:Ez; cbn in Hw; [|discriminate]. injection Hw as -> ->. split; [exact Hj|]. eauto. }
  assert (U : forall i z, In (i, z) ps -> forall i' z', In (i', z') ps -> i = i' -> z = z').
  { intros i z H1 i' z' H2 <-. destruct (W _ _ H1) as (_ & e1 & A1 & B1). destruct (W _ _ H2) as (_ & e2 & A2 & B2). congruence. }
  pose proof (fill_ok ps _ _ Hf U) as N. apply Forall2_nth'; [rewrite (fill_len _ _ _ Hf), map_length; reflexivity|].
  intros k e e' Hk Hk'. rewrite N, nth_error_map, Hk in Hk'. cbn [option_map zset] in Hk'. destruct (find _ ps) as [(j, z)|] eqn:F; cbn [option_map snd] in Hk'.
  - injection Hk' as <-. apply find_some in F. destruct F as [F1 F2]. cbn in F2. apply Nat.eqb_eq in F2. subst j. destruct (W _ _ F1) as (Hi & e1 & A & B). assert (e1 = e) by congruence. subst e1.
    destruct (proj1 (GI k) Hi) as (e2 & A2 & I). assert (e2 = e) by congruence. subst e2. unfold ran, set_z, clear. cbn. repeat split; auto.
    + intros _. exists z. split; [reflexivity|]. apply mapM_ok, B.
    + congruence.
  - injection Hk' as <-. unfold ran, clear. cbn. repeat split; auto. intros I. exfalso. assert (Hi : In k idx) by (apply GI; eauto). destruct (Forall2_In_l _ _ _ _ Em Hi) as ((j, z) & Hp & Hw).
    rewrite (worker_eq _ _ _ _ _ _ R Hk) in Hw. destruct (mapM calc (erows e)); cbn in Hw; [|discriminate]. assert (j = k) by congruence. subst j.
    pose proof (find_none _ _ F _ Hp) as X. cbn in X. rewrite Nat.eqb_refl in X. discriminate.
Qed.

(** reading with the redshifts *)
Lemma Forall2_len {A B} (R : A -> B -> Prop) l m : Forall2 R l m -> List.length l = List.length m.
Proof. induction 1; cbn; auto. Qed.
Lemma ran_consistent calc g a npt nt tab out : regular npt nt tab -> Forall2 (ran calc g a) tab out -> consistent out.
Proof.
  intros (_ & _ & HR) F x Hx. destruct (Forall2_In_r _ _ _ _ F Hx) as (e & He & (E1 & E2 & E3 & E4 & E5)). rewrite E2, E3. split; [apply HR, He|].
  intros z Hz. destruct (in_run g a e); [destruct (E4 eq_refl) as (zs & Ez & Fz)|rewrite (E5 eq_refl) in Hz; discriminate]. rewrite Hz in Ez. injection Ez as ->. rewrite <- (Forall2_len _ _ _ Fz). apply HR, He.
Qed.
Lemma ran_border calc g a g' a' tab out : Forall2 (ran calc g a) tab out -> border_covered g' tab a' -> border_covered g' out a'.
Proof. intros F HB x r Hx Hr Hc. destruct (Forall2_In_r _ _ _ _ F Hx) as (e & He & (E1 & _ & E3 & _)). rewrite E1, E3 in *. exact (HB e r He Hr Hc). Qed.

Lemma zip_own calc (P : row -> bool) rows zs : Forall2 (fun r z => calc r = Ok z) rows zs ->
  Forall2 (own_zred calc) (filter (fun o => P (fst o)) (combine rows (map Some zs))) (filter P rows).
Proof.
  induction 1 as [|r z rows zs E F IH]; cbn; [constructor|]. destruct (P r); [|exact IH]. constructor; [|exact IH]. split; [reflexivity|]. cbn. eauto.
Qed.
Lemma Forall2_app' {A B} (R : A -> B -> Prop) l m l' m' : Forall2 R l m -> Forall2 R l' m' -> Forall2 R (l ++ l') (m ++ m').
Proof. intros H H'. induction H; cbn; [exact H'|constructor; assumption]. Qed.
Lemma read_own calc g a g' a' tab out : Forall2 (ran calc g a) tab out ->
  Forall2 (own_zred calc) (map snd (filter (requested g' a') (everything true out)))
    (map (fun x => fst (snd x)) (filter (fun x => in_run g a (fst x) && requested g' a' x) (everything false tab))).
Proof.
  intros F. rewrite (filter_ext _ _ (requested_req g' a')). 
  match goal with |- Forall2 _ _ ?m => replace m with (List.concat (map (fun x => filter (fun r => in_run g a x && req g' a' (ehpix x) r) (map fst (with_zred false x))) tab))
    by (symmetry; exact (everything_rows false tab (fun x r => in_run g a x && req g' a' (ehpix x) r))) end.
  induction F as [|e e' tab out (E1 & E2 & E3 & E4 & E5) F IH]; cbn [everything map List.concat]; [constructor|].
  change (List.concat (map (fun e0 => map (pair e0) (with_zred true e0)) out)) with (everything true out). rewrite filter_app, map_app. apply Forall2_app'; [|exact IH]. clear IH F.
  rewrite filter_map', map_map. cbn [fst snd]. rewrite map_id. cbn [with_zred]. rewrite map_map. cbn [fst]. rewrite map_id. rewrite E1, E3.
  destruct (in_run g a e).
  - destruct (E4 eq_refl) as (zs & -> & Fz). cbn [andb]. apply zip_own. exact Fz.
  - rewrite (E5 eq_refl). cbn [filter andb]. replace (filter (fun _ => false) (erows e)) with (@nil row); [constructor|]. clear. induction (erows e) as [|y l IH]; [reflexivity|exact IH].
Qed.
Lemma own_fst calc r l : Forall2 (own_zred calc) r l -> map fst r = l.
Proof. induction 1 as [|o y r l (E & _) F IH]; cbn; [reflexivity|]. rewrite IH, E. reflexivity. Qed.
