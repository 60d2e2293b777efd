(** Properties C161 and C162: a catalog that is ingested, run for redshifts and read back. *)
From Coq Require Import Permutation.
From Verif.Base Require Import Py PyLemmas Fn.
From Verif.Model Require Import Maker Galfile Ingest.
From Verif.Spec Require Import Galfile Ingest.
From Verif.Proofs Require Import Maker Galfile Ingest.
From Coq Require Import Lia List. Import ListNotations.

(** C161.  Ingest in any number of calls, finalize, read any region: the galaxies returned are exactly those of the calls that
    returned which lie inside the mask and inside the requested region of the sky, each as often as it was given. *)
Theorem C161_read : forall e ph cs s1 rs s2 g nt a r, sound e -> border_sound e ph g a -> a_zred a = false -> a_temp a = false ->
  append_many e fresh cs = (s1, rs) -> finalize_catalog e s1 = (s2, Ok tt) ->
  from_galfile g nt (pixel_files ph s2) a = Ok r ->
  Permutation (map fst r) (map (fun x => row_of ph (gdat x)) (filter (wanted e ph g a) (taken cs rs))).
Proof.
  intros e ph cs s1 rs s2 g nt a r Hs Hb Hz Ht Ha Hf H.
  apply from_galfile_region in H; [|exact (proj2 (files_regular e Hs _ _ _ _ ph 1 Ha Hf ltac:(lia)))|exact (files_border e Hs _ _ _ _ _ _ _ Ha Hf Hb)|exact Ht].
  rewrite H, Hz, map_map. exact (requested_perm e cs s1 rs s2 ph g a Hs Ha Hf).
Qed.
Print Assumptions C161_read.

(** C161.  The read is answered whenever the request is valid and any ingested galaxy lies in the region. *)
Theorem C161_succeeds : forall e ph cs s1 rs s2 g nt a x, sound e -> border_sound e ph g a -> valid_request g nt a -> a_zred a = false -> a_temp a = false ->
  append_many e fresh cs = (s1, rs) -> finalize_catalog e s1 = (s2, Ok tt) ->
  In x (taken cs rs) -> wanted e ph g a x = true ->
  exists r, from_galfile g nt (pixel_files ph s2) a = Ok r.
Proof.
  intros e ph cs s1 rs s2 g nt a x Hs Hb Hv Hz Ht Ha Hf Hx Hw.
  pose proof (requested_perm e cs s1 rs s2 ph g a Hs Ha Hf) as P.
  assert (I : In (row_of ph (gdat x)) (map (fun x => row_of ph (gdat x)) (filter (wanted e ph g a) (taken cs rs)))) by (apply (in_map (fun x => row_of ph (gdat x))), filter_In; auto).
  apply (Permutation_in _ (Permutation_sym P)) in I. apply in_map_iff in I. destruct I as (y & _ & Hy). apply filter_In in Hy. destruct Hy as [Hy1 Hy2].
  apply (from_galfile_succeeds g nt _ a y); auto; [exact (proj2 (files_regular e Hs _ _ _ _ ph 1 Ha Hf ltac:(lia)))|exact (files_border e Hs _ _ _ _ _ _ _ Ha Hf Hb)|rewrite Hz; exact Hy1].
Qed.
Print Assumptions C161_succeeds.

(** C161.  With generated ids the catalog can always be finalized, and the calls that return are those on acceptable galaxies. *)
Theorem C161_finalizes : forall e cs s1 rs, sound e -> genids e = true -> append_many e fresh cs = (s1, rs) ->
  (exists s2, finalize_catalog e s1 = (s2, Ok tt)) /\
  rs = map (fun c => if forallb gok c then Ok tt else Err RuntimeError) cs.
Proof.
  intros e cs s1 rs [H1 H2] Hg Ha. destruct (append_many_inv e H1 H2 cs fresh [] (inv_fresh e)) as (s' & E & HI). rewrite E in Ha. injection Ha as <- <-. split.
  - destruct (finalize_gen e s' _ Hg HI) as (s3 & E3 & _). eauto.
  - apply map_ext. intros c. unfold chunk_ok. rewrite Hg. cbn [orb]. rewrite andb_true_r. reflexivity.
Qed.
Print Assumptions C161_finalizes.

(** C162.  After a run for redshifts, a read with redshifts returns exactly the requested galaxies in the pixels of the run, in
    their order, each with the redshift computed from that very galaxy. *)
Theorem C162_own : forall calc g npt nt tab a out g' nt' a' r, regular npt nt tab -> border_covered g' tab a' -> a_zred a' = true -> a_temp a' = false ->
  zred_run calc g npt nt tab a = Ok out -> from_galfile g' nt' out a' = Ok r ->
  Forall2 (own_zred calc) r (map (fun x => fst (snd x)) (filter (fun x => in_run g a (fst x) && requested g' a' x) (everything false tab))).
Proof.
  intros calc g npt nt tab a out g' nt' a' r R HB Hz Ht Hr H. pose proof (zred_table _ _ _ _ _ _ _ R Hr) as F.
  apply from_galfile_region in H; [|exact (ran_consistent _ _ _ _ _ _ _ R F)|exact (ran_border _ _ _ _ _ _ _ F HB)|exact Ht]. rewrite H, Hz. apply read_own, F.
Qed.
Print Assumptions C162_own.

(** C162.  The run changes nothing in the galaxy table, and gives redshifts to the pixels of its region and to no others. *)
Theorem C162_table : forall calc g npt nt tab a out, regular npt nt tab -> zred_run calc g npt nt tab a = Ok out ->
  Forall2 (fun x y => ehpix y = ehpix x /\ engals y = engals x /\ erows y = erows x /\ (ezfile y <> None <-> in_run g a x = true)) tab out.
Proof.
  intros calc g npt nt tab a out R Hr. pose proof (zred_table _ _ _ _ _ _ _ R Hr) as F. clear -F. induction F as [|x y tab out (E1 & E2 & E3 & E4 & E5) F IH]; constructor; [|exact IH].
  split; [exact E1|]. split; [exact E2|]. split; [exact E3|]. destruct (in_run g a x).
  - destruct (E4 eq_refl) as (zs & -> & _). split; [reflexivity|discriminate].
  - rewrite (E5 eq_refl). split; [congruence|discriminate].
Qed.
Print Assumptions C162_table.

(** C162.  The run succeeds when every galaxy of its region has a redshift, and raises when one has not. *)
Theorem C162_succeeds : forall calc g npt nt tab a, regular npt nt tab -> tab <> [] -> NoDup (a_hpix a) ->
  (a_border a <= 0)%Q ->
  ((exists out, zred_run calc g npt nt tab a = Ok out) <->
   forall x r, In x tab -> in_run g a x = true -> In r (erows x) -> exists z, calc r = Ok z).
Proof.
  intros calc g npt nt tab a R NE ND NB.
  assert (Hg : exists idx, get_subpixel_indices g tab a = Ok idx).
  { unfold get_subpixel_indices. destruct (_ || _) eqn:E0; [eauto|]. apply orb_false_iff in E0. destruct E0 as [E0 _].
    destruct (eu_match_ok (a_hpix a) (map (fun x => up g (ehpix x)) tab)) as (m & ->); [intros E; rewrite E in E0; discriminate|destruct tab; [congruence|discriminate]|exact ND|]. cbn [bind].
    rewrite (proj2 (Qlt_bool_false 0 (a_border a)) NB). eauto. }
  destruct Hg as (idx & Hg). pose proof (gsi_idx _ _ _ _ Hg) as GI. split.
  - intros (out & Hr) x r Hx Hi Hin. pose proof (zred_table _ _ _ _ _ _ _ R Hr) as F. destruct (Forall2_In_l _ _ _ _ F Hx) as (y & _ & (_ & _ & _ & E4 & _)). destruct (E4 Hi) as (zs & _ & Fz). destruct (Forall2_In_l _ _ _ _ Fz Hin) as (z & _ & E). eauto.
  - intros H. unfold zred_run. rewrite Hg. cbn [bind].
    assert (W : forall i, In i idx -> exists x z, nth_error tab i = Some x /\ List.length z = engals x /\ worker calc npt nt tab i = Ok (i, z)).
    { intros i Hi. destruct (proj1 (GI i) Hi) as (x & Ex & Ir). rewrite (worker_eq _ _ _ _ _ _ R Ex).
      assert (Z : exists z, mapM calc (erows x) = Ok z). { pose proof (fun r => H x r (nth_error_In _ _ Ex) Ir) as Hz. clear -Hz. induction (erows x) as [|r l IH]; cbn; [eauto|]. destruct (Hz r (or_introl eq_refl)) as (z & ->). cbn. destruct IH as (t & ->); [intros; apply Hz; right; assumption|]. cbn. eauto. }
      destruct Z as (z & Ez). rewrite Ez. cbn. exists x, z. split; [exact Ex|]. split; [|reflexivity]. apply mapM_ok in Ez. rewrite <- (Forall2_len _ _ _ Ez). destruct R as (_ & _ & R). apply R. eapply nth_error_In; eauto. }
    assert (M : exists ps, mapM (worker calc npt nt tab) idx = Ok ps /\ forall i z, In (i, z) ps -> exists x, nth_error tab i = Some x /\ List.length z = engals x).
    { clear -W. induction idx as [|i idx IH]; cbn; [exists []; cbn; tauto|]. destruct (W i (or_introl eq_refl)) as (x & z & Ex & L & ->). cbn. destruct IH as (ps & -> & Hp); [intros; apply W; right; assumption|]. cbn. eexists; split; [reflexivity|].
      intros j w [[= <- <-]|Hj]; [eauto|]. apply Hp, Hj. }
    destruct M as (ps & -> & Hp). cbn [bind]. apply fill_succeeds. intros i z Hi. destruct (Hp i z Hi) as (x & Ex & L). exists (clear x). rewrite nth_error_map, Ex. auto.
Qed.
Print Assumptions C162_succeeds.

(** C162.  From the input galaxies to the redshifts: ingest with any history of calls, finalize, run for redshifts over the whole
    sky, read any region with redshifts: exactly the ingested galaxies of that region come back, each with its own redshift. *)
Theorem C162_pipeline : forall calc e ph cs s1 rs s2 g nt out g' nt' a a' r, sound e -> 0 < nt -> border_sound e ph g' a' -> a_hpix a = [] -> a_zred a' = true -> a_temp a' = false ->
  append_many e fresh cs = (s1, rs) -> finalize_catalog e s1 = (s2, Ok tt) ->
  zred_run calc g (Z.of_nat (npix e)) nt (pixel_files ph s2) a = Ok out ->
  from_galfile g' nt' out a' = Ok r ->
  Permutation (map fst r) (map (fun x => row_of ph (gdat x)) (filter (wanted e ph g' a') (taken cs rs))) /\
  forall o, In o r -> exists z, snd o = Some z /\ calc (fst o) = Ok z.
Proof.
  intros calc e ph cs s1 rs s2 g nt out g' nt' a a' r Hs Hn Hb Hh Hz Ht Ha Hf Hr H.
  destruct (files_regular e Hs _ _ _ _ ph nt Ha Hf Hn) as [R _].
  pose proof (C162_own calc g _ nt _ a out g' nt' a' r R (files_border e Hs _ _ _ _ _ _ _ Ha Hf Hb) Hz Ht Hr H) as F.
  split.
  - rewrite <- (requested_perm e cs s1 rs s2 ph g' a' Hs Ha Hf). apply Permutation_refl'.
    rewrite (filter_ext (requested g' a') (fun x => in_run g a (fst x) && requested g' a' x)) by (intros x; unfold in_run; rewrite Hh; reflexivity).
    exact (own_fst _ _ _ F).
  - intros o Ho. destruct (Forall2_In_l _ _ _ _ F Ho) as (y & _ & (E & z & A & B)). exists z. split; [exact A|]. rewrite E. exact B.
Qed.
Print Assumptions C162_pipeline.

(** Finding: every run writes its table from scratch.  After a second run (for another region, same redshift file) the galaxies
    of the first region have no redshifts any more: a read of a pixel outside the last region raises, although its redshift
    files are still there. *)
Theorem C162_again_refuted : forall calc g npt nt tab a1 a2 out1 out2 h, regular npt nt tab ->
  zred_run calc g npt nt tab a1 = Ok out1 -> zred_run calc g npt nt out1 a2 = Ok out2 ->
  0 < a_nside a2 -> a_hpix a2 <> [] -> (a_border a2 <= 0)%Q -> ~ In h (a_hpix a2) -> (0 <= h < npix_of g)%Z -> a_nside a2 <= nt ->
  tab <> [] ->
  from_galfile g nt out2 (mkA (a_nside a2) [h] 0%Q true false (a_magrange a1) (a_chimax a1)) = Err ValueError.
Proof.
  intros calc g npt nt tab a1 a2 out1 out2 h R R1 R2 Hn Hh Hb Nh Hr Hnt NE.
  pose proof (zred_table _ _ _ _ _ _ _ R R1) as F1.
  assert (Rg : regular npt nt out1).
  { destruct R as (X1 & X2 & X3). split; [exact X1|]. split.
    - replace (map ehpix out1) with (map ehpix tab); [exact X2|]. clear -F1. induction F1 as [|x y ? ? (E & _) F IH]; cbn; [reflexivity|]. rewrite IH, E. reflexivity.
    - intros y Hy. destruct (Forall2_In_r _ _ _ _ F1 Hy) as (x & Hx & (E1 & E2 & E3 & _)). rewrite E1, E2, E3. apply X3, Hx. }
  pose proof (zred_table _ _ _ _ _ _ _ Rg R2) as F2.
  assert (NE2 : out2 <> []). { inversion F1; subst; [congruence|]. inversion F2; subst; discriminate. }
  set (b := mkA _ _ _ _ _ _ _). assert (Hck : check_args g nt b = Ok tt).
  { unfold check_args, b. cbn [a_border a_nside a_hpix existsb List.length Nat.eqb]. change (Qlt_bool 0 0) with false. cbn [andb]. destruct (Z.ltb_spec h 0); [lia|]. destruct (Z.leb_spec (npix_of g) h); [lia|]. cbn [orb]. rewrite andb_false_r.
    destruct (Nat.ltb_spec nt (a_nside a2)); [lia|]. reflexivity. }
  unfold from_galfile. rewrite Hck. cbn [bind].
  assert (Hg : exists idx, get_subpixel_indices g out2 b = Ok idx).
  { unfold get_subpixel_indices, b. cbn [a_hpix a_nside a_border List.length Nat.eqb orb]. destruct (Nat.eqb_spec (a_nside a2) 0); [lia|].
    destruct (eu_match_ok [h] (map (fun x => up g (ehpix x)) out2)) as (m & ->); [discriminate|destruct out2; [congruence|discriminate]|constructor; [intros []|constructor]|]. cbn [bind]. change (Qlt_bool 0 0) with false. cbv iota. eauto. }
  destruct Hg as (idx & Hg). rewrite Hg. cbn [bind]. rewrite (gsi_ok _ _ _ _ Hg). cbn [b a_zred].
  replace (filter has_z (filter (selected g out2 b) out2)) with (@nil entry); [reflexivity|].
  symmetry. destruct (filter has_z _) as [|y l] eqn:E; [reflexivity|exfalso]. assert (Hy : In y (filter has_z (filter (selected g out2 b) out2))) by (rewrite E; left; reflexivity).
  apply filter_In in Hy. destruct Hy as [Hy Hz]. apply filter_In in Hy. destruct Hy as [Hy Hsel]. rewrite selected_in_run in Hsel by exact Hy.
  destruct (Forall2_In_r _ _ _ _ F2 Hy) as (x & _ & (E1 & _ & _ & _ & E5)). unfold has_z in Hz. rewrite E5 in Hz; [discriminate|].
  unfold in_run, b in Hsel. cbn [a_hpix a_nside a_border List.length Nat.eqb orb] in Hsel. destruct (Nat.eqb_spec (a_nside a2) 0); [lia|]. change (Qlt_bool 0 0) with false in Hsel. cbn [andb] in Hsel. rewrite orb_false_r in Hsel.
  apply is_in_iff in Hsel. destruct Hsel as [Hsel|[]]. rewrite E1 in Hsel. unfold in_run. destruct (Nat.eqb_spec (List.length (a_hpix a2)) 0) as [L|L]; [destruct (a_hpix a2); [congruence|discriminate]|]. destruct (Nat.eqb_spec (a_nside a2) 0); [lia|]. cbn [orb].
  rewrite (proj2 (Qlt_bool_false 0 (a_border a2)) Hb). cbn [andb]. rewrite orb_false_r. destruct (is_in _ _) eqn:I; [|reflexivity]. exfalso. apply is_in_iff in I. rewrite <- Hsel in I. contradiction.
Qed.
Print Assumptions C162_again_refuted.

Definition ex_e : env := Maker.mkE 48 (fun d => Z.to_nat (d mod 48)) (fun d => negb (Z.eqb d 7)) (fun l => rev l) true.
Definition ex_ph : phot := mkPhot (fun d => d mod 48)%Z (fun d => inject_Z (18 + d mod 5)).
Definition ex_g : geo := mkGeo (fun h => h / 4)%Z [] [] (fun x => x) 12.
Example C162_ex : sound ex_e /\
  exists s1 rs s2 out out2 r, append_many ex_e fresh [[mkG 1 5 true; mkG 1 53 true; mkG 2 7 true]; [mkG 3 20 false]; [mkG 4 21 true]] = (s1, rs) /\
  rs = [Ok tt; Err RuntimeError; Ok tt] /\ finalize_catalog ex_e s1 = (s2, Ok tt) /\
  zred_run (fun r => Ok (Galfile.mkZ (rmag r) (rdat r + 1000))) ex_g 48 2 (pixel_files ex_ph s2) (mkA 0 [] 0 true false (0, 30)%Q 20) = Ok out /\
  from_galfile ex_g 2 out (mkA 1 [1%Z] 0 true false (0, 30)%Q 20) = Ok r /\
  map (fun o => (rdat (fst o), option_map zdat (snd o))) r = [(53%Z, Some 1053%Z); (5%Z, Some 1005%Z)] /\
  zred_run (fun r => Ok (Galfile.mkZ (rmag r) (rdat r + 1000))) ex_g 48 2 out (mkA 1 [5%Z] 0 true false (0, 30)%Q 20) = Ok out2 /\
  from_galfile ex_g 2 out2 (mkA 1 [1%Z] 0 true false (0, 30)%Q 20) = Err ValueError.
Proof.
  split.
  { split; [intros d; cbn; pose proof (Z.mod_pos_bound d 48 eq_refl); lia|intros l; cbn; apply Permutation_sym, Permutation_rev]. }
  do 6 eexists. repeat split; vm_compute; reflexivity.
Qed.
