(** The fit of the ratio of true to stated magnitude errors: ErrorBinFitter, fitters.py:1062-1185, over the reals.
    Simplified: a bin is the list of its galaxies (reverse indices of the histogram, 1089-1093, 1103, 1180); the draws of the bootstrap
    (1105) are inputs; the minimiser is an input. *)
From Coq Require Import Reals Lra.
From Verif.Base Require Import Py.
From Coq Require Import Lia List. Import ListNotations.
Local Open Scope R_scope.

(** np.median *)
Fixpoint insertR (x : R) (l : list R) : list R := match l with [] => [x] | y :: t => if Rle_dec x y then x :: l else y :: insertR x t end.
Fixpoint sortR (l : list R) : list R := match l with [] => [] | x :: t => insertR x (sortR t) end.
Definition medianR (l : list R) : R :=
  let s := sortR l in let n := List.length s in
  if Nat.even n then (nth (n / 2 - 1) s 0 + nth (n / 2) s 0) / 2 else nth (n / 2) s 0.
(** 1107-1108, 1181-1182: 1.4826 times the median absolute deviation *)
Definition madR (l : list R) : R := 14826 / 10000 * medianR (map (fun x => Rabs (x - medianR l)) l).
(** 1083-1087: a galaxy: residual of the color, magnitude relative to the pivot, the errors of the two bands, intrinsic variance *)
Record eg := mkEG { g_dc : R; g_dm : R; g_e0 : R; g_e1 : R; g_s2 : R }.
(** 1163-1177; [s0], [s1]: whether 0 and 1 are among the scaled bands *)
Definition pull (s0 s1 : bool) (a b : R) (g : eg) : R :=
  let r := a + b * g_dm g in
  g_dc g / sqrt (g_s2 g + (if s0 then r * g_e0 g else g_e0 g) ^ 2 + (if s1 then r * g_e1 g else g_e1 g) ^ 2).
(** 1095-1111: the error of the scatter in a bin, from [draws]: lists of galaxies drawn from it *)
Definition mad_err (draws : list (list eg)) : R := madR (map (fun d => madR (map (pull false false 1 0) d)) draws).
(** 1114: a bin and its error *)
Definition used (bins : list (list eg * R)) : list (list eg * R) := filter (fun b => if Rlt_dec 0 (snd b) then true else false) bins.
(** 1161-1185 *)
Definition chi2 (s0 s1 : bool) (bins : list (list eg * R)) (a b : R) : R :=
  fold_right Rplus 0 (map (fun q => (madR (map (pull s0 s1 a b) (fst q)) - 1) ^ 2 / snd q ^ 2) (used bins)).
(** 1133-1147: the range of the two parameters *)
Definition within_bounds (a b : R) : Prop := 5 / 10 <= a <= 10 /\ -5 <= b <= 5.
