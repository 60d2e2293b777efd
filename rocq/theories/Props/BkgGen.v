(** C33, first half: the redshift bins are divided among the workers. *)
From Coq Require Import Reals Lra.
From Verif.Base Require Import Py.
From Verif.Model Require Import BkgGen.
From Verif.Spec Require Import BkgGen.
From Verif.Proofs Require BkgGen.
Local Open Scope R_scope.

(** Every bin goes to exactly one worker, whatever the bins inside zrange and the number of workers are,
    provided no bin coincides with an inner division between two workers (missing: that case, refuted below). *)
Theorem C33_bins_once_partial : forall zmin zmax nproc bins,
  1/1000 < zmin -> zmin < zmax -> (0 < nproc)%nat ->
  (forall z, In z bins -> zmin <= z <= zmax) ->
  (forall z i, In z bins -> (0 < i < nproc)%nat -> z <> zedge zmin zmax nproc i) ->
  each_once (worker_list zmin zmax nproc bins) (List.length bins).
Proof. intros zmin zmax nproc bins H1 H2 H3. exact (Verif.Proofs.BkgGen.bins_once zmin zmax nproc H1 H2 H3 bins). Qed.
Print Assumptions C33_bins_once_partial.

(** Finding: a bin that coincides with a division is computed by no worker (its density stays 0). *)
Theorem C33_bin_on_division_refuted : exists zmin zmax binsize n nproc,
  1/1000 < zmin /\ zmin < zmax /\ zmin + INR (n - 1) * binsize < zmax <= zmin + INR n * binsize /\ (0 < nproc)%nat /\
  exists j, (j < List.length (zbins zmin binsize n))%nat /\
    ~ In j (List.concat (worker_list zmin zmax nproc (zbins zmin binsize n))).
Proof.
  exists (101/1000), (399/1000), (199/1000), 2%nat, 2%nat. cbn [INR Nat.sub].
  repeat split; try lra; try lia. exists 1%nat. split; [cbn; lia|]. apply Verif.Proofs.BkgGen.bins_missed.
Qed.
Print Assumptions C33_bin_on_division_refuted.

(** Non-vacuity: one worker takes every bin, e.g. 0.1 and 0.2. *)
Example C33_witness : each_once (worker_list (1/10) (3/10) 1 [1/10; 2/10]) 2.
Proof.
  apply (C33_bins_once_partial (1/10) (3/10) 1 [1/10; 2/10]); try lra; try lia.
  - intros z [<-|[<-|[]]]; lra.
Qed.
(** ... and with two workers: 0.101 and 0.2 around the division at 0.3. *)
Example C33_witness2 : each_once (worker_list (101/1000) (399/1000) 2 [101/1000; 2/10; 35/100]) 3.
Proof.
  apply (C33_bins_once_partial (101/1000) (399/1000) 2 [101/1000; 2/10; 35/100]); try lra; try lia.
  - intros z [<-|[<-|[<-|[]]]]; lra.
  - intros z i Hz Hi. replace i with 1%nat by lia. rewrite Verif.Proofs.BkgGen.middle_edge.
    destruct Hz as [<-|[<-|[<-|[]]]]; lra.
Qed.
