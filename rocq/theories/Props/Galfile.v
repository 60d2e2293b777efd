(** Properties C10, C11 (galaxy.py GalaxyCatalog.from_galfile). *)
From Verif.Base Require Import Py PyLemmas.
From Verif.Model Require Import Galfile.
From Verif.Spec Require Import Galfile.
From Verif.Proofs Require Import Galfile.

(** C10.  A successful read returns exactly the requested galaxies, in table order, each once, each
    with its own zred record. *)
Theorem C10_region : forall g nt tab a r,
  consistent tab -> border_covered g tab a -> a_temp a = false ->
  from_galfile g nt tab a = Ok r ->
  r = map snd (filter (requested g a) (everything (a_zred a) tab)).
Proof. exact from_galfile_region. Qed.
Print Assumptions C10_region.

(** C10.  A valid request for a region with at least one readable galaxy is answered. *)
Theorem C10_succeeds : forall g nt tab a x,
  consistent tab -> border_covered g tab a -> valid_request g nt a -> a_temp a = false ->
  In x (everything (a_zred a) tab) -> requested g a x = true ->
  exists r, from_galfile g nt tab a = Ok r.
Proof. exact from_galfile_succeeds. Qed.
Print Assumptions C10_succeeds.

(** C10.  Reading through the temporary file with cuts = reading, and keeping the galaxies within the cuts. *)
Theorem C10_tempfile : forall g nt tab a r,
  consistent tab ->
  from_galfile g nt tab (set_temp a false) = Ok r ->
  exists keep, (forall o, keep o = true <-> within_cuts a o) /\
    from_galfile g nt tab (set_temp a true) = Ok (filter keep r).
Proof. exact tempfile_cuts. Qed.
Print Assumptions C10_tempfile.

(** Finding: a zred file with a single record is silently broadcast to every galaxy of its pixel. *)
Theorem C10_one_row_zred_refuted : exists g nt tab a r,
  (forall e, In e tab -> List.length (erows e) = engals e) /\
  from_galfile g nt tab a = Ok r /\
  exists r1 r2 z, In (r1, Some z) r /\ In (r2, Some z) r /\ r1 <> r2 /\
    (forall e zs, In e tab -> ezfile e = Some zs -> zs = [z]).
Proof.
  exists (mkGeo (fun _ => 0%Z) [] [] (fun z => z) 12), 4,
    [mkE 3 2 [mkRow 1 20 1; mkRow 2 21 2] (Some [mkZ 1 7])],
    (mkA 0 [] 0 true false (0, 100)%Q 20).
  eexists. split; [intros e [<-|[]]; reflexivity|]. split; [vm_compute; reflexivity|].
  exists (mkRow 1 20 1), (mkRow 2 21 2), (mkZ 1 7). cbn. repeat split; auto; try discriminate.
  intros e zs [<-|[]] [= <-]. reflexivity.
Qed.
Print Assumptions C10_one_row_zred_refuted.

(** C11.  Errors for invalid requests. *)
Theorem C11_negative_border : forall g nt tab a,
  (a_border a < 0)%Q -> from_galfile g nt tab a = Err ValueError.
Proof. exact negative_border. Qed.
Print Assumptions C11_negative_border.
Theorem C11_border_with_list : forall g nt tab a,
  (0 < a_border a)%Q -> 1 < List.length (a_hpix a) ->
  (forall h, In h (a_hpix a) -> (0 <= h < npix_of g)%Z) ->
  from_galfile g nt tab a = Err NotImplementedError.
Proof. exact multi_border. Qed.
Print Assumptions C11_border_with_list.
Theorem C11_nside_too_big : forall g nt tab a,
  (0 <= a_border a)%Q -> List.length (a_hpix a) <= 1 ->
  (forall h, In h (a_hpix a) -> (0 <= h < npix_of g)%Z) -> nt < a_nside a ->
  from_galfile g nt tab a = Err ValueError.
Proof. exact nside_too_big. Qed.
Print Assumptions C11_nside_too_big.

(** C11.  Whenever galaxies are returned the request was valid and some requested file is usable. *)
Theorem C11_invalid_never_ok : forall g nt tab a r,
  from_galfile g nt tab a = Ok r ->
  (0 <= a_border a)%Q /\
  (0 < a_nside a -> forall h, In h (a_hpix a) -> (0 <= h < npix_of g)%Z) /\
  ((0 < a_border a)%Q -> List.length (a_hpix a) <= 1) /\
  a_nside a <= nt /\
  (exists e, In e tab /\ (a_zred a = true -> ezfile e <> None) /\
     (a_hpix a <> [] -> 0 < a_nside a -> ~ (0 < a_border a)%Q -> In (up g (ehpix e)) (a_hpix a))).
Proof. exact invalid_never_ok. Qed.
Print Assumptions C11_invalid_never_ok.

(** C11.  A valid request for a region in which the table has no pixel never gives an empty catalogue: it
    raises IndexError, and ValueError when zreds are asked for. *)
Theorem C11_empty_region : forall g nt tab a,
  tab <> [] -> valid_request g nt a -> (a_border a == 0)%Q -> a_hpix a <> [] -> 0 < a_nside a ->
  (forall e, In e tab -> ~ In (up g (ehpix e)) (a_hpix a)) ->
  from_galfile g nt tab a = Err (if a_zred a then ValueError else IndexError).
Proof. exact empty_region. Qed.
Print Assumptions C11_empty_region.

(** Finding: an out-of-range pixel raises NameError instead of ValueError. *)
Theorem C11_out_of_range_refuted : exists g nt tab a,
  0 < a_nside a /\ In 999%Z (a_hpix a) /\ (npix_of g <= 999)%Z /\
  from_galfile g nt tab a = Err NameError.
Proof.
  exists (mkGeo (fun _ => 0%Z) [] [] (fun z => z) 48), 4, [], (mkA 2 [999%Z] 0 false false (0, 100)%Q 20).
  cbn. repeat split; auto; lia.
Qed.
Print Assumptions C11_out_of_range_refuted.

(** Non-trivial instance: four table pixels, one requested pixel with a border. *)
Definition ex_geo : geo := mkGeo (fun p => Z.div p 2) [5%Z] [20; 21; 22; 50]%Z (fun z => z) 48.
Definition ex_tab : list entry :=
  [mkE 4 2 [mkRow 20 19 1; mkRow 21 22 2] (Some [mkZ 3 10; mkZ 4 11]);
   mkE 5 2 [mkRow 50 20 3; mkRow 51 20 4] (Some [mkZ 5 12; mkZ 6 13]);
   mkE 6 1 [mkRow 60 20 5] (Some [mkZ 1 14]);
   mkE 7 1 [mkRow 70 20 6] None].
Definition ex_args : args := mkA 2 [2%Z] (1#2) true false (0, 21)%Q 20.
Example C10_ex :
  consistent ex_tab /\ border_covered ex_geo ex_tab ex_args /\
  from_galfile ex_geo 4 ex_tab ex_args =
    Ok [(mkRow 20 19 1, Some (mkZ 3 10)); (mkRow 21 22 2, Some (mkZ 4 11)); (mkRow 50 20 3, Some (mkZ 5 12))] /\
  from_galfile ex_geo 4 ex_tab (set_temp ex_args true) =
    Ok [(mkRow 20 19 1, Some (mkZ 3 10)); (mkRow 50 20 3, Some (mkZ 5 12))].
Proof.
  split. { intros e He. cbn in He.
           repeat destruct He as [<-|He]; try contradiction; (split; [reflexivity|intros z Hz; cbn in Hz; congruence || (injection Hz as <-; reflexivity)]). }
  split. { intros e r He Hr Hc. cbn in He.
           repeat destruct He as [<-|He]; try contradiction; cbn in Hr; repeat destruct Hr as [<-|Hr]; try contradiction;
             cbn in *; auto; exfalso; intuition discriminate. }
  split; vm_compute; reflexivity.
Qed.
Example C10_valid_ex : valid_request ex_geo 4 ex_args.
Proof.
  unfold valid_request, ex_geo, ex_args. cbn.
  split; [vm_compute; discriminate|]. split; [intros h [<-|[]]; lia|].
  split; [repeat constructor; cbn; intuition discriminate|]. split; [lia|]. split; [lia|].
  repeat constructor; cbn; intuition discriminate.
Qed.
