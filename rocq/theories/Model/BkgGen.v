(** Division of the background redshift bins among workers, background.py:327-328 and 344-366, over the
    real numbers (floating-point rounding is not modelled). *)
From Coq Require Import Reals.
From Verif.Base Require Import Py.
Local Open Scope R_scope.

(** background.py:327-328: zbins = arange(nzbins) * binsize + zrange[0], nzbins given *)
Definition zbins (zmin binsize : R) (n : nat) : list R := map (fun j => INR j * binsize + zmin) (seq 0 n).

(** background.py:345-348: zedges[i] *)
Definition zedge (zmin zmax : R) (nproc i : nat) : R :=
  let l0 := ln (zmin - 1/1000) in
  let l1 := ln (zmax + 1/1000) in
  (exp l0 + exp l1) - exp (l0 + INR i * ((l1 - l0) / INR nproc)).

Definition Rltb (x y : R) : bool := if Rlt_dec x y then true else false.

(** background.py:352: (zbins < zedges[i]) & (zbins > zedges[i+1]) *)
Definition worker_bins (zmin zmax : R) (nproc : nat) (bins : list R) (i : nat) : list nat :=
  np_where (fun z => Rltb z (zedge zmin zmax nproc i) && Rltb (zedge zmin zmax nproc (S i)) z) bins.

(** background.py:350-366: empty workers are skipped *)
Definition worker_list (zmin zmax : R) (nproc : nat) (bins : list R) : list (list nat) :=
  filter (fun l => negb (Nat.eqb (List.length l) 0)) (map (worker_bins zmin zmax nproc bins) (seq 0 nproc)).
