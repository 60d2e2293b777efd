(** The diagnostic of redshifts against spectroscopy: plotting.py:74-118 (SpecPlot.plot_cluster_catalog_from_members), 154, 198-202, 210-223
    (plot_values: outliers, bias, scatter and error in bins), 306-329 (_make_photoz_map: the coarse bins).  Exact arithmetic.  The figure itself
    is not modelled, nor the contours (331-369).  esutil's histogram lists the rows of a bin in some order, here in that of the table; all that is
    computed from them is a median. *)
From Coq Require Import QArith Qabs.
From Verif.Base Require Import Py.
From Verif.Model Require Import Maskgals Util.
From Coq Require Import List. Import ListNotations.
Local Open Scope Q_scope.

(** ** 103-118: a redshift for each cluster from its members.  A member: the id of its cluster, its redshift *)
Definition with_spec (ms : list (Z * Q)) : list (Z * Q) := filter (fun m => Qlt_bool 0 (snd m)) ms.
(** 111-115: [a] are the positions of clusters returned by the match; position j of [a] is taken for row j of the members *)
Definition bin_median (a : list nat) (zs : list Q) (v : nat) : Q :=
  match map snd (filter (fun p => Nat.eqb (fst p) v) (combine a zs)) with [] => 0 | l => medianQ l end.
Definition member_medians (cat : list Z) (ms : list (Z * Q)) : res (list Q) :=
  let ms := with_spec ms in
  do ab <- eu_match cat (map fst ms);                                          (* 107 *)
  match fst ab with
  | [] => Err ValueError                                                       (* 109: histogram of nothing *)
  | x :: t =>
      let lo := fold_left Nat.min t x in let hi := fold_left Nat.max t x in    (* the bins go from the least to the largest position *)
      Ok (map (fun i => if Nat.ltb i (hi - lo + 1) then bin_median (fst ab) (map snd ms) (lo + i) else 0) (seq 0 (length cat)))
  end.

(** ** 154-223.  A row: spectroscopic redshift, redshift, error *)
Record row := mkRow { r_spec : Q; r_phot : Q; r_err : Q }.
Definition used (l : list row) : list row := filter (fun r => Qlt_bool 0 (r_spec r)) l.
(** 198; the errors are not 0 *)
Definition is_out (nsig : Q) (r : row) : bool := Qlt_bool nsig (Qabs (r_phot r - r_spec r) / r_err r).
(** 167, 202: without rows the minimum of 306 fails before the division *)
Definition fracout (nsig : Q) (l : list row) : res Q :=
  match used l with [] => Err ValueError | u => Ok (Qn (length (filter (is_out nsig) u)) / Qn (length u)) end.
(** 211 *)
Definition top (zmax : Q) : Q := zmax - (1 # 1000).
Definition nbins (zmax bs : Q) : nat := Z.to_nat (Qtrunc ((top zmax - 0) / bs) + 1).
Definition in_bin (zmax bs : Q) (j : nat) (r : row) : bool :=
  Qle_bool 0 (r_phot r) && Qle_bool (r_phot r) (top zmax) && Z.eqb (Qtrunc ((r_phot r - 0) / bs)) (Z.of_nat j).
(** 212 *)
Definition center (bs : Q) (j : nat) : Q := Qn j * bs + bs / 2.
Record stat := mkStat { t_bias : Q; t_scatter : Q; t_err : Q }.
(** 214-223 *)
Definition bin_stat (l : list row) : stat :=
  if Nat.ltb (length l) 3 then mkStat 0 0 0
  else let dz := map (fun r => r_spec r - r_phot r) l in let b := medianQ dz in
       mkStat b ((14862 # 10000) * medianQ (map (fun d => Qabs (d - b)) dz)) (medianQ (map r_err l)).
Definition bias_scatter (zmax bs : Q) (l : list row) : list (Q * stat) :=
  map (fun j => (center bs j, bin_stat (filter (in_bin zmax bs j) (used l)))) (seq 0 (nbins zmax bs)).

(** ** 306-320: is a redshift in coarse bin i of [n] between the least and the largest *)
Definition in_coarse (zmin zmax : Q) (n i : nat) (z : Q) : bool :=
  let w := (zmax - zmin) / Qn n in let lo := Qn i * w + zmin in Qle_bool lo z && Qlt_bool z (lo + w).
