(** The areas and volumes of the redMaGiC calibration: redmagic/redmagic_calibrate.py:521, 535-551, 566-583 and
    volumelimit.py:285-290, 366-375 (the redshifts of the table of areas).  Rational arithmetic; [V z1 z2] is the volume of the whole sky
    between two redshifts (cosmo.V). *)
From Coq Require Import QArith Qround.
From Verif.Base Require Import Py.
From Verif.Model Require Import Galfile Util.
From Coq Require Import List. Import ListNotations.
Local Open Scope Q_scope.

(** volumelimit.py:285-290, 366-375: the redshifts of the table *)
Definition area_zs (z0 z1 fine : Q) : list Q := arange z0 z1 fine.
(** redmagic_calibrate.py:539-540, 566-567 for one redshift *)
Definition area_at (zs areas : list Q) (z : Q) : res Q :=
  match nth_error areas (ss_left zs z) with Some a => Ok a | None => Err IndexError end.
(** 521: the middles of [n] bins *)
Definition centres (lo bs : Q) (n : nat) : list Q := map (fun i => inject_Z (Z.of_nat i) * bs + lo + bs / 2) (seq 0 n).
Definition sky : Q := 41252961 # 1000.
(** 542-546, 569-573: area lookup of all redshifts, then the volume of one bin about each *)
Definition bin_volume (V : Q -> Q -> Q) (bs z area : Q) : Q := V (z - bs / 2) (z + bs / 2) * (area / sky).
Definition volumes (V : Q -> Q -> Q) (bs : Q) (zs areas at_ : list Q) : res (list Q) :=
  do found <- mapM (area_at zs areas) at_;
  Ok (map (fun za => bin_volume V bs (fst za) (snd za)) (combine at_ found)).
(** 576-583: the range of redshifts of the galaxies counted for node j of n *)
Definition count_range (bs : Q) (j n : nat) (node : Q) : Q * Q :=
  if Nat.eqb j 0 then (node, node + bs)
  else if Nat.eqb j (n - 1) then (node - bs, node)
  else (node - bs / 2, node + bs / 2).
