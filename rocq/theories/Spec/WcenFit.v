(** Specification for C152 and C153. *)
From Coq Require Import Reals Lra List. Import ListNotations.
Local Open Scope R_scope.

(** density of the normal distribution *)
Definition density (x m s : R) : R := exp (- (((x - m) / s) ^ 2 / 2)) / (s * sqrt (2 * PI)).
Definition total (l : list R) : R := fold_right Rplus 0 l.
(** mean and variance of values with widths proportional to their scales: pairs (value, scale) *)
Definition wmean (l : list (R * R)) : R := total (map (fun p => fst p / snd p ^ 2) l) / total (map (fun p => / snd p ^ 2) l).
Definition wvar (l : list (R * R)) : R := total (map (fun p => ((fst p - wmean l) / snd p) ^ 2) l) / INR (length l).
