(** The radii for which the correction for the mask is tabulated, and points drawn in a disc: mask.py:128-132, 191-202 (gen_maskgals),
    centering.py:353-398 (CenteringRandom.find_center).  Exact reals. *)
From Coq Require Import Reals.
From Verif.Base Require Import Py.
From Coq Require Import List. Import ListNotations.
Local Open Scope R_scope.

(** np.floor, np.ceil *)
Definition floorR (x : R) : Z := Int_part x.
Definition ceilR (x : R) : Z := (- floorR (- x))%Z.
(** mask.py:128 *)
Definition minrad (r0 beta : R) : R := Rmin (IZR (floorR (10 * r0 * Rpower (3 / 100) beta)) / 10) (5 / 10).
(** mask.py:129 *)
Definition maxrad (r0 beta : R) : R := IZR (ceilR (10 * r0 * Rpower (300 / 100) beta)) / 10.
(** mask.py:131-132 *)
Definition nradbins (r0 beta step : R) : Z := (ceilR ((maxrad r0 beta - minrad r0 beta) / step) + 1)%Z.
Definition radbins (r0 beta step : R) : list R := map (fun i => INR i * step + minrad r0 beta) (seq 0 (Z.to_nat (nradbins r0 beta step))).

(** mask.py:191-202: polar to Cartesian; [u], [v] random numbers from [0, 1) *)
Definition disc_point (r phi : R) : R * R := (r * cos phi, r * sin phi).
Definition uniform_point (annulus u v : R) : R * R := disc_point (annulus * sqrt u) (v * 2 * PI).

(** centering.py:378-398; angles of positions in degrees, [scale] the size of a degree in Mpc *)
Record centre := mkCentre { c_ra : R; c_dec : R; c_ngood : nat; c_index : Z; c_maxind : Z; c_pcen : R; c_qcen : R; c_psat : R; c_pfg : R; c_pc : R }.
Definition radians (d : R) : R := d * (PI / 180).
Definition random_centre (rlambda scale ra dec u v : R) : centre :=
  let r := rlambda * sqrt u in let phi := 2 * PI * v in
  let x := r * cos phi / scale in let y := r * sin phi / scale in
  mkCentre (ra + x / cos (radians dec)) (dec + y) 1 (-1) (-1) 1 1 0 0 1.
(** run_percolation.py:363-366: the check of the centre that follows, with numpy's index -1 for the last element.  [pfree]: of the
    neighbours, [lambda]: their richness over the scale *)
Definition centre_rejected (lambda minlambda cut : R) (pfree : list R) (maxind : Z) : res bool :=
  do p <- py_index pfree maxind;
  Ok (if Rlt_dec lambda minlambda then true else if Rlt_dec p cut then true else false).
