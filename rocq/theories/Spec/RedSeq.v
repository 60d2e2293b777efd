(** Specifications of the red-sequence tables. *)
From Coq Require Import QArith Qround Qabs.
From Verif.Base Require Import Py.
From Verif.Model Require Import RedSeq.
Local Open Scope nat_scope.

(** the redshift of row i *)
Definition zrow (z0 zb : Q) (i : nat) : Q := (zb * inject_Z (Z.of_nat i) + z0)%Q.
(** row i of the table is at least as near to z as any other regular row *)
Definition nearest (z0 zb : Q) (n i : nat) (z : Q) : Prop :=
  i < n /\ forall j, j < n -> (Qabs (z - (zb * inject_Z (Z.of_nat i) + z0)) <= Qabs (z - (zb * inject_Z (Z.of_nat j) + z0)))%Q.
(** the table starts on a multiple of the bin size, and the bin size is one over an integer *)
Definition aligned (z0 zb : Q) : Prop := exists k n : Z, (0 < n)%Z /\ (zb * inject_Z n == 1)%Q /\ (z0 * inject_Z n == inject_Z k)%Q.
(** row e is the calibrated row nearest to row i: the first one if i is below the calibrated redshifts, the last one if above *)
Definition first_calibrated (zmin zmax : Q) (zs : list Q) (e : nat) : Prop :=
  (exists z, nth_error zs e = Some z /\ (zmin <= z <= zmax)%Q) /\ forall j z, nth_error zs j = Some z -> (zmin <= z <= zmax)%Q -> e <= j.
Definition last_calibrated (zmin zmax : Q) (zs : list Q) (e : nat) : Prop :=
  (exists z, nth_error zs e = Some z /\ (zmin <= z <= zmax)%Q) /\ forall j z, nth_error zs j = Some z -> (zmin <= z <= zmax)%Q -> j <= e.
