(** The radial and luminosity filters: utilities.py:110-111 (schechter_pdf) and 134-174 (nfw_pdf), over the reals.
    None: not a number (a root of a negative number or a division by zero). *)
From Coq Require Import Reals Lra.
From Verif.Base Require Import Py.
Local Open Scope R_scope.

(** 145-148, 151-154 *)
Definition inner_val (x : R) : option R :=
  if Rlt_dec x 1 then
    let arg := sqrt ((1 - x) / (1 + x)) in let pre := 2 / sqrt (1 - x ^ 2) in let front := 1 / (x ^ 2 - 1) in
    Some (front * (1 - pre * (5 / 10) * ln ((1 + arg) / (1 - arg))))
  else None.
(** 157-160 *)
Definition outer_val (x : R) : R :=
  let arg := sqrt ((x - 1) / (x + 1)) in let pre := 2 / sqrt (x ^ 2 - 1) in let front := 1 / (x ^ 2 - 1) in
  front * (1 - pre * atan arg).
(** 134-174, for one radius *)
Definition nfw_pdf (rscale corer : R) (radfactor : bool) (x : R) : option R :=
  let xs := x / rscale in let corex := corer / rscale in
  let lim := 10 / rscale in
  let s :=
    if Rlt_dec xs corex then
      (* the later assignments 156-169 win over the first for a core beyond them *)
      if Rlt_dec xs (1001 / 1000) then (if Rlt_dec (999 / 1000) xs then
           match inner_val (999 / 1000) with Some lo => Some ((lo + outer_val (1001 / 1000)) / 2) | None => None end
         else inner_val corex)
      else if Rlt_dec xs lim then Some (outer_val xs) else inner_val corex
    else if Rle_dec xs (999 / 1000) then inner_val xs
    else if Rlt_dec xs (1001 / 1000) then match inner_val (999 / 1000) with Some lo => Some ((lo + outer_val (1001 / 1000)) / 2) | None => None end
    else if Rlt_dec xs lim then Some (outer_val xs) else Some 0 in
  match s with Some v => Some (if radfactor then v * (2 * PI * x) else v) | None => None end.
(** 110-111 *)
Definition schechter (alpha mstar x : R) : R := Rpower 10 (4 / 10 * (alpha + 1) * (mstar - x)) * exp (- Rpower 10 (4 / 10 * (mstar - x))).
(** cluster.py:486-488 with 293, 316-321: the filter of a galaxy; [norm]: the normalisation, [rho]: the color filter *)
Definition ucount (norm alpha mstar rho r m : R) : option R :=
  match nfw_pdf (15 / 100) (1 / 10) false r with Some s => Some ((2 * PI * r) * s * (schechter alpha mstar m / norm) * rho) | None => None end.
