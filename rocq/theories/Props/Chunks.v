(** C12, C39, and the reading half of C33. *)
From Coq Require Import Qround.
From Verif.Base Require Import Py PyLemmas.
From Verif.Model Require Import Chunks.
From Verif.Spec Require Import Chunks.
From Verif.Proofs Require Chunks.

(** C12: with at least as many galaxies as processes, the chunks, in order, are exactly 0, 1, ..., ngal-1:
    every galaxy is in exactly one chunk.  (Missing from the full property: fewer galaxies than processes,
    where the code fails: next theorem.) *)
Theorem C12_chunks_cover_partial : forall ngal nproc maxperproc,
  0 < nproc -> 0 < maxperproc -> nproc <= ngal ->
  exists cs, zred_run_chunks ngal nproc maxperproc = Ok cs /\ all_indices cs = seq 0 ngal.
Proof. exact Verif.Proofs.Chunks.zred_run_ok. Qed.
Print Assumptions C12_chunks_cover_partial.
Example C12_witness : zred_run_chunks 10 4 4000 = Ok [(0,2);(2,4);(4,6);(6,8);(8,10)].
Proof. vm_compute. reflexivity. Qed.

(** An explicitly given chunk size always works. *)
Theorem C12_given_size : forall ngal nperproc, 0 < nperproc ->
  exists cs, zred_chunks ngal nperproc = Ok cs /\ all_indices cs = seq 0 ngal.
Proof. exact Verif.Proofs.Chunks.zred_chunks_ok. Qed.
Print Assumptions C12_given_size.

(** Finding: every file with fewer galaxies than processes makes the run fail. *)
Theorem C12_few_galaxies_refuted : forall ngal nproc maxperproc, ngal < nproc ->
  zred_run_chunks ngal nproc maxperproc = Err ZeroDivisionError.
Proof. exact Verif.Proofs.Chunks.few_galaxies. Qed.
Print Assumptions C12_few_galaxies_refuted.

(** C39: more than one process.  The split exists; its pixels are distinct; a pixel is a split pixel iff it
    contains a galaxy-table pixel of the region, so each such table pixel is in exactly one split pixel (the
    one containing it at that resolution); the resolution is the finest allowed one that keeps the number of
    pixels within twice the number of processes, or the coarsest one if none does. *)
Theorem C39_splits : forall g dpix dnside min_nside nproc,
  healpix_ok g dpix (allowed g (coarsest g dnside min_nside)) ->
  NoDup (sg_hpix g) -> region_pixels g dpix <> [] -> 0 < min_nside -> nproc <> 1 ->
  exists ns px, get_pixel_splits g dnside min_nside nproc = Ok (ns, px) /\
    NoDup px /\ (forall p, In p px <-> exists t, In t (region_pixels g dpix) /\ sg_up g ns t = p) /\
    allowed g (coarsest g dnside min_nside) ns /\
    ((n_occupied g dpix ns <= 2 * nproc /\
      forall ns', allowed g (coarsest g dnside min_nside) ns' -> ns < ns' -> 2 * nproc < n_occupied g dpix ns')
     \/ (ns = coarsest g dnside min_nside /\
         forall ns', allowed g (coarsest g dnside min_nside) ns' -> 2 * nproc < n_occupied g dpix ns')).
Proof. exact Verif.Proofs.Chunks.splits_main. Qed.
Print Assumptions C39_splits.

(** A single process: the same when the configured resolution is not above the minimum one... *)
Theorem C39_single_process_partial : forall g dpix dnside min_nside,
  healpix_ok g dpix (fun ns => ns = Nat.max dnside 1) -> NoDup (sg_hpix g) -> region_pixels g dpix <> [] -> dnside <= min_nside ->
  exists ns px, get_pixel_splits g dnside min_nside 1 = Ok (ns, px) /\ ns = Nat.max dnside 1 /\
    NoDup px /\ (forall p, In p px <-> exists t, In t (region_pixels g dpix) /\ sg_up g ns t = p).
Proof. exact Verif.Proofs.Chunks.splits_single. Qed.
Print Assumptions C39_single_process_partial.
(** ... and a failure otherwise: finding. *)
Theorem C39_single_process_refuted : forall g dnside min_nside, min_nside < dnside ->
  get_pixel_splits g dnside min_nside 1 = Err AttributeError.
Proof. exact Verif.Proofs.Chunks.splits_single_fails. Qed.
Print Assumptions C39_single_process_refuted.

(** Witness: a toy hierarchy in which pixel p of resolution n covers p*(16/n) ..; the table has resolution 16. *)
Definition toy (hp tab : list Z) : split_geo :=
  mkSG (fun ns t => t * Z.of_nat ns / 16)%Z (fun ns p => p * 2 / Z.of_nat ns)%Z (fun ns => ns) hp tab 16.
Definition toy1 := toy [1%Z] [3; 8; 9; 12; 13; 15]%Z.
Example C39_witness : get_pixel_splits toy1 2 4 2 = Ok (8, [4; 6; 7]%Z).
Proof. vm_compute. reflexivity. Qed.
Example C39_witness_hyps : region_pixels toy1 (fun t => t / 8)%Z = [8; 9; 12; 13; 15]%Z /\
  healpix_ok toy1 (fun t => t / 8)%Z (allowed toy1 (coarsest toy1 2 4)).
Proof.
  split; [vm_compute; reflexivity|].
  assert (H : forall ns, allowed toy1 (coarsest toy1 2 4) ns -> ns = 4 \/ ns = 8 \/ ns = 16).
  { intros ns (k & -> & Hk). change (coarsest toy1 2 4) with 4 in *. cbn [toy1 toy sg_tabnside] in Hk.
    destruct k as [|[|[|k]]]; cbn; auto. exfalso. destruct Hk as [Hk|Hk]; [lia|].
    replace (S (S (S k)) - 1) with (2 + k) in Hk by lia. rewrite Nat.pow_add_r in Hk. cbn [Nat.pow] in Hk.
    pose proof (Nat.pow_nonzero 2 k). lia. }
  split; intros ns t Hn; [intros Ht|intros _ Ht]; cbn in Ht;
    destruct (H ns Hn) as [->|[->| ->]];
    repeat (destruct Ht as [<-|Ht]; [vm_compute; try reflexivity; split; congruence|]); contradiction.
Qed.

(** C33, second half.  A pixelised catalog is read completely, each galaxy once... *)
Theorem C33_pixelized_read_all : forall counts nrows natatime,
  all_indices (bkg_ranges true counts nrows natatime) = seq 0 (fold_right Nat.add 0 counts).
Proof. exact Verif.Proofs.Chunks.bkg_pixelized. Qed.
Print Assumptions C33_pixelized_read_all.
(** ... finding: of a catalog that is a single file nothing is ever read. *)
Theorem C33_single_file_refuted : forall counts nrows natatime,
  all_indices (bkg_ranges false counts nrows natatime) = [].
Proof. exact Verif.Proofs.Chunks.bkg_rows_none_ind. Qed.
Print Assumptions C33_single_file_refuted.
