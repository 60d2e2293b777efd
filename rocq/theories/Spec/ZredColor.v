(** What the photometric redshift columns promise. *)
From Coq Require Import Reals Lra Sorting.Sorted.
From Verif.Base Require Import Py.
From Verif.Model Require Import BkgGen ZredColor.
Local Open Scope R_scope.

(** the grid increases *)
Definition increasing (g : zgrid) : Prop := forall i j, (i < j <= zg_n g)%nat -> zg_z g i < zg_z g j.
(** the last entry of the grid is the overflow redshift *)
Definition overflow (g : zgrid) : Prop := 100 <= zg_z g (zg_n g).
(** a redshift of the grid is within the magnitude limits *)
Definition within (g : zgrid) (mag : R) (i : nat) : Prop :=
  (i <= zg_n g)%nat /\ zg_min g i < mag < zg_max g i /\ zg_z g i < 100.
(** the documented values of a failed galaxy *)
Definition failed_row (o : zout) : Prop :=
  o_zred o = -1 /\ o_zred_e o = -1 /\ o_zred2 o = -1 /\ o_zred2_e o = -1 /\ o_unc o = -1 /\ o_unc_e o = -1 /\
  o_chisq o = -1 /\ o_lkhd o = -1000.
(** [n] times [f] *)
Fixpoint iter {A} (n : nat) (f : A -> A) (x : A) : A := match n with O => x | S m => iter m f (f x) end.
(** a bin takes part in the average: its density is at least 1e-5 of the largest *)
Definition weighty (g : zgrid) (mag : R) (lnd : nat -> R) (i : nat) : Prop :=
  (i < zg_n g)%nat /\ In i (zbins g (limited g mag)) /\
  forall m, In m (zbins g (limited g mag)) -> ln (1/100000) < lnd i - lnd m.
(** a galaxy for which no redshift can be given: fewer than two bins within the magnitude limits, or
    no bin that takes part has a real density *)
Definition hopeless (g : zgrid) (mag : R) (lnd : nat -> R) : Prop :=
  (length (limited g mag) < 2)%nat \/
  forall i, weighty g mag lnd i -> lnd i < -10000000000.
(** one correction step *)
Definition corr_map (k : zcorr) (mag z : R) (d : R) : R := k_corr k (z + d) + (mag - k_pivot k z) * k_slope k (z + d).
(** a galaxy computed alone, with corrections *)
Definition alone (g : zgrid) (P : parabola) (k : zcorr) (do_corr : bool) (x : zgal) : res zout :=
  compute_zred g P k do_corr false (zx_mag x) (zx_lnd x) (zx_chisq x).
(** bins in increasing redshift *)
Definition incl_sorted (z : nat -> R) (l : list nat) : Prop := StronglySorted (fun i j => z i < z j) l.
