(** The luminosity filter and its normalisation: redsequence.py:165-183, 330-339, 370-376, 383-399 and 447-465 (the table), cluster.py:297-321
    (_calc_luminosity) and mask.py:180-185, 215-222 (the mask galaxies).  Real arithmetic. *)
From Coq Require Import Reals Lra.
From Verif.Base Require Import Py.
From Verif.Model Require Import BkgGen Depth Profile RedSamp.
From Coq Require Import Lia List. Import ListNotations.
Local Open Scope R_scope.

(** 166-172: 10 in the low redshift mode, else 12 *)
Definition first_mag (lowz : bool) : Z := if lowz then 10%Z else 12%Z.
(** 169-174: np.arange to a tenth of the characteristic luminosity at the largest redshift; [ms]: the characteristic magnitude there *)
Definition n_lum (b0 : Z) (ms : R) : nat := Z.to_nat (ceilR ((ms - 25/10 * log10 (1/10) - IZR b0) / (1/100))).
Definition lum_bin (b0 : Z) (i : nat) : R := IZR b0 + INR i * (1/100).
(** 178: with the last value once more; of no values it is an IndexError *)
Definition lum_bins (b0 : Z) (n : nat) : res (list R) :=
  match n with O => Err IndexError | S m => Ok (map (lum_bin b0) (seq 0 n) ++ [lum_bin b0 m]) end.
(** 375-376: the integers of the look-up, with 1000 in the last place *)
Definition lum_integers (b0 : Z) (n : nat) : list Z := map (fun i => (100 * b0 + Z.of_nat i)%Z) (seq 0 n) ++ [100000%Z].
(** np.round: to even *)
Definition roundR (x : R) : Z :=
  let f := Int_part x in
  if Rltb (x - IZR f) (1/2) then f else if Rltb (1/2) (x - IZR f) then (f + 1)%Z else if Z.even f then f else (f + 1)%Z.
(** 461 *)
Definition lum_index (b0 : Z) (n : nat) (mag : R) : nat := prefix_len (fun y => (y <? roundR (mag * 100))%Z) (lum_integers b0 n).
(** 337-339: one redshift; np.cumsum *)
Fixpoint sums (acc : R) (l : list R) : list R := match l with [] => [] | x :: t => (acc + x) :: sums (acc + x) t end.
Definition lumnorm (b0 : Z) (n : nat) (alpha mstar : R) : res (list R) :=
  do b <- lum_bins b0 n; Ok (map (fun s => 1/100 * s) (sums 0 (map (schechter alpha mstar) b))).
(** cluster.py:315-321; [mstar]: that of the row of the redshift, for the table and for the galaxies (383-399) *)
Definition calc_luminosity (b0 : Z) (n : nat) (alpha mstar normmag m : R) : res R :=
  do t <- lumnorm b0 n alpha mstar;
  match nth_error t (lum_index b0 n normmag) with Some v => Ok (schechter alpha mstar m / v) | None => Err IndexError end.
(** cluster.py:482 *)
Definition maxmag (mstar lval : R) : R := mstar - 25/10 * log10 lval.
(** mask.py:216-222; [simpson]: the integral over the steps *)
Definition mask_lum (simpson : list R -> R) (alpha lval m : R) : R * R :=
  let normmag := maxmag 19 lval in
  let steps := map (lum_bin 10) (seq 0 (Z.to_nat (ceilR ((normmag - 10) / (1/100))))) in
  let pdf := schechter alpha 19 (m + 19) in (pdf, pdf / simpson (map (schechter alpha 19) steps)).
