(** What the properties about the luminosity filter speak about. *)
From Coq Require Import Reals.
From Verif.Base Require Import Py.
From Verif.Model Require Import LumNorm.
From Coq Require Import List. Import ListNotations.
Local Open Scope R_scope.

(** the sum of a function over the magnitudes first, first + 0.01, ..., first + k * 0.01, times 0.01 *)
Definition binned (first : Z) (f : R -> R) (k : nat) : R := sum_f_R0 (fun i => f (IZR first + INR i / 100) / 100) k.
(** the filter of a cluster, as a function of the magnitude *)
Definition filter_is (b0 : Z) (n : nat) (alpha mstar normmag : R) (phi : R -> R) : Prop := forall m, calc_luminosity b0 n alpha mstar normmag m = Ok (phi m).
