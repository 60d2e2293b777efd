(** What the calibration of the redMaGiC cuts should do. *)
From Coq Require Import QArith Qround.
From Verif.Base Require Import Py.
From Verif.Model Require Import Maskgals RedCal.
From Coq Require Import List. Import ListNotations.
Local Open Scope Q_scope.

Definition count {A} (p : A -> bool) (l : list A) : nat := List.length (filter p l).
(** x is in bin j of width bs from lo, and not above hi *)
Definition in_bin (lo hi bs : Q) (j : nat) (x : Q) : bool :=
  Qle_bool (lo + Qn j * bs) x && Qlt_bool x (lo + Qn (S j) * bs) && Qle_bool x hi.
