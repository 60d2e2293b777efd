(** The number density in redshift and the map of positions: plotting.py:414-431 (NzPlot.plot_cluster_catalog: one redshift drawn for each cluster),
    468-484, 491 (plot_nz: bins, volumes, densities and the points drawn), 724-732 (PositionPlot.plot_positions).  Redshifts are exact rationals,
    volumes real numbers.  [V a b]: the volume of the whole sky between two redshifts (cosmo.V).  The figures are not modelled. *)
From Coq Require Import QArith Qround Reals Lra.
From Verif.Base Require Import Py.
From Verif.Model Require Import Galfile Util PdfSample BkgGen.
From Verif.Model Require RedCal.
From Coq Require Import List. Import ListNotations.
Local Open Scope Q_scope.

(** ** 419-431 *)
Definition nsamp : nat := 100.
Definition xvals (lo hi : Q) : list Q := map (fun k => inject_Z (Z.of_nat k) / inject_Z (Z.of_nat nsamp) * (hi - lo) + lo) (seq 0 nsamp).
(** [u]: the random number, from 0 up to 1.  A density of sum 0 becomes nan, for which the comparison of 430 finds nothing *)
Definition draw (pzbins pz : list Q) (u : Q) : res Q :=
  do hi <- py_index pzbins (-1); do lo <- py_index pzbins 0;
  do ys <- mapM (interpol pz pzbins) (xvals lo hi);
  if Qeq_bool (Qsum ys) 0 then Err IndexError else sample (xvals lo hi) ys u.

(** ** 468-484 *)
Definition center (z0 bs : Q) (j : nat) : Q := z0 + inject_Z (Z.of_nat j) * bs + bs / 2.
Definition counts (z0 z1 bs : Q) (zs : list Q) : list nat := RedCal.histogram z0 (z1 - (1 # 10000)) bs zs.
Definition low (z0 bs : Q) (j : nat) : Q := Qmax2 (center z0 bs j - bs / 2) z0.
Definition high (z0 z1 bs : Q) (j : nat) : Q := Qmin2 (center z0 bs j + bs / 2) z1.
Definition sky : R := 41252.961.
(** 472: an empty table of areas gives the index -1 *)
Definition area_for (az : list Q) (areas : list R) (z : Q) : res R :=
  py_index areas (clipZ 0 (Z.of_nat (List.length areas) - 1) (Z.of_nat (ss_left az z))).
Definition volume (V : Q -> Q -> R) (az : list Q) (areas : list R) (z0 z1 bs : Q) (j : nat) : res R :=
  do a <- area_for az areas (center z0 bs j); Ok (V (low z0 bs j) (high z0 z1 bs j) * (a / sky))%R.
(** 480-484, 491: the point of a bin of [h] objects, if it is drawn: density and error *)
Definition point (h : nat) (vol : R) : option (R * R) :=
  let dens := (INR h / vol)%R in let err := (sqrt (dens * vol) / vol)%R in
  if (Rltb 0 dens && Rltb 0 err && Rltb 5 (dens / err))%bool then Some ((dens * 10000)%R, (err * 10000)%R) else None.
Definition nz (V : Q -> Q -> R) (az : list Q) (areas : list R) (z0 z1 bs : Q) (zs : list Q) : res (list (Q * option (R * R))) :=
  mapM (fun jh => do v <- volume V az areas z0 z1 bs (fst jh); Ok (center z0 bs (fst jh), point (snd jh) v)) (combine (seq 0 (List.length (counts z0 z1 bs zs))) (counts z0 z1 bs zs)).

(** ** 724-732 *)
Definition mod360 (x : Q) : Q := x - 360 * inject_Z (Qfloor (x / 360)).
Definition extent (l : list Q) : res Q :=
  match l with [] => Err ValueError | x :: t => Ok (fold_left Qmax2 t x - fold_left Qmin2 t x) end.
Definition ra_to_plot (ra : list Q) : res (list Q) :=
  do d <- extent ra; let rot := map (fun x => mod360 (x + 180)) ra in do d' <- extent rot;
  Ok (if Qlt_bool d' d then rot else ra).
