(** Model of redmapper/randoms.py:362-405: the area corrected by the fraction of random points that pass the cuts.  Rational
    arithmetic.  The spline fit (397-403) is a parameter: a function of the points fitted, evaluated at a redshift. *)
From Coq Require Import QArith.
From Verif.Base Require Import Py Sort.
From Verif.Model Require Chunks.
From Verif.Model Require Import Randoms Util.
From Coq Require Import List. Import ListNotations.
Local Open Scope Q_scope.

Definition Qnat (n : nat) : Q := inject_Z (Z.of_nat n).
(** randoms.py:395: nan_to_num of a ratio of counts; 0/0 becomes 0 (the numerator is never larger than the denominator) *)
Definition ratio (good all : nat) : Q := if Nat.eqb all 0 then 0 else Qnat good / Qnat all.
(** randoms.py:378-392: the rows in the order of redshift, the counts at the edges, and the points of the fit *)
Definition fit_points (asort : list Q -> list nat) (c : wconf) (rows : list rpoint) (zbins : list Q) : res (list (Q * Q)) :=
  do sr <- np_take rows (asort (map p_z rows));
  let zs := map p_z sr in
  let gz := map p_z (filter (area_cut c) sr) in
  let ind1 := map (ss_left zs) zbins in
  let ind2 := map (ss_left gz) zbins in
  let n := (length zbins - 2)%nat in
  let xvals := map (fun ab => (fst ab + snd ab) / 2) (combine (firstn n zbins) (firstn n (tl zbins))) in
  let yvals := map (fun ab => ratio (fst ab) (snd ab)) (combine (firstn n (tl ind2)) (firstn n (tl ind1))) in
  Ok (combine xvals yvals).
(** randoms.py:370-405: the table of areas; [z0], [z1] and [binsize] are config.zrange and config.area_coarsebin *)
Definition corrected (asort : list Q -> list nat) (fit : list (Q * Q) -> Q -> Q) (c : wconf) (rows : list rpoint) (z0 z1 binsize : Q)
  (astr : list (Q * Q)) : res (list (Q * Q)) :=
  do pts <- fit_points asort c rows (arange z0 z1 binsize);
  Ok (map (fun za => (fst za, clipQ 0 1 (fit pts (fst za)) * snd za)) astr).
(** randoms.py:354-360 with catalog.py:143-146: of a table with one row that row is written, whatever the indices *)
Definition weight_file (c : wconf) (cat : list rclus) (rand : list rpoint) : res (list (rpoint * Q)) :=
  do rows <- all_use c cat rand;
  let w := weigh_groups c rows (Chunks.uniqueZ (map p_id rows)) (repeat 0 (length rows)) in
  Ok (if Nat.eqb (length rows) 1 then combine rows w else filter (fun rw => Qlt_bool 0 (snd rw)) (combine rows w)).
