(** What the background tables are: independent of how they are accumulated. *)
From Coq Require Import QArith Qround.
From Verif.Base Require Import Py.
From Verif.Model Require Import BkgTable.
Local Open Scope nat_scope.

(** A galaxy at [x] stands for a box of one bin width [w] around it; [share lo w x k] is the part of that box inside of bin k,
    the interval [lo + k w, lo + (k+1) w]. *)
Definition share (lo w x : Q) (k : nat) : Q :=
  let a := (lo + inject_Z (Z.of_nat k) * w)%Q in
  (Qmax2 0 (Qmin2 (x + w / 2) (a + w) - Qmax2 (x - w / 2) a) / w)%Q.

(** the value of cell [j] of row [m] *)
Definition cell (t : list (list Q)) (m j : nat) : Q := nth j (nth m t []) 0%Q.
Definition shape (t : list (list Q)) (nm nx : nat) : Prop :=
  List.length t = nm /\ forall m, m < nm -> List.length (nth m t []) = nx.

(** [e] is the end of the bin that contains [x] (of the first bin for an x before it) *)
Definition bin_end (lo w x e : Q) : Prop :=
  exists k : nat, (e == lo + inject_Z (Z.of_nat k) * w)%Q /\ 1 <= k /\ (x < e)%Q /\ (k = 1 \/ (e <= x + w)%Q).

(** [hi - lo] is n bins of size w *)
Definition whole (lo hi w : Q) (n : nat) : Prop := (hi == lo + inject_Z (Z.of_nat n) * w)%Q.

(** linear interpolation in the nodes [xs]: [lin xs x k t] says that x is at the fraction t of the way from node k to node
    k+1; beyond the ends, at the end *)
Definition lin (xs : list Q) (x : Q) (k : nat) (t : Q) : Prop :=
  exists a b, nth_error xs k = Some a /\ nth_error xs (S k) = Some b /\ (a < b)%Q /\
    (((a <= x)%Q /\ (x <= b)%Q /\ (t * (b - a) == x - a)%Q) \/
     (k = 0 /\ (x <= a)%Q /\ (t == 0)%Q) \/ (S (S k) = List.length xs /\ (b <= x)%Q /\ (t == 1)%Q)).
(** the same, beyond the ends on the line through the two end nodes *)
Definition lin_ext (xs : list Q) (x : Q) (k : nat) (t : Q) : Prop :=
  exists a b, nth_error xs k = Some a /\ nth_error xs (S k) = Some b /\ (a < b)%Q /\ (t * (b - a) == x - a)%Q /\
    ((a <= x)%Q \/ k = 0) /\ ((x <= b)%Q \/ S (S k) = List.length xs).
Definition mix (t u v : Q) : Q := ((1 - t) * u + t * v)%Q.

(** the galaxies that the background of a redshift bin is made of: brighter than the limit of the bin and of the catalog,
    chi-squared below the largest considered *)
Definition counted (cut limmag chisq_max : Q) (g : gal) : bool :=
  Qlt_bool 12 (g_mag g) && Qlt_bool (g_mag g) cut && Qlt_bool (g_mag g) limmag &&
  Qle_bool 0 (g_chi g) && Qlt_bool (g_chi g) chisq_max.
Definition zcounted (zlo zhi limmag maxchisq : Q) (g : zgal) : bool :=
  Qlt_bool 12 (zg_mag g) && Qlt_bool (zg_mag g) limmag && Qlt_bool (zg_chi g) maxchisq &&
  Qle_bool zlo (zg_zred g) && Qlt_bool (zg_zred g) zhi.
