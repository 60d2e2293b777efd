(** What the colour backgrounds should be. *)
From Coq Require Import QArith.
From Verif.Base Require Import Py.
From Verif.Model Require Import Maskgals ColorBkg.
From Coq Require Import List. Import ListNotations.
Local Open Scope Q_scope.

(** the galaxies (colour, magnitude) that count in bin k of the colour, of width 0.02 from -2 *)
Definition in_col_bin (limmag : Q) (k : nat) (c : Q * Q) : bool :=
  Qle_bool (- (2) + Qn k * (2 # 100)) (fst c) && Qlt_bool (fst c) (- (2) + Qn (S k) * (2 # 100)) &&
  Qlt_bool (- (2)) (fst c) && Qlt_bool (fst c) 5 && Qlt_bool (snd c) (limmag - (1 # 2)).
Definition rich (minrange : nat) (limmag : Q) (cm : list (Q * Q)) (k : nat) : Prop :=
  (minrange < List.length (filter (in_col_bin limmag k) cm))%nat.
Definition cell3 (t : list (list (list Q))) (m k j : nat) : Q := nth j (nth k (nth m t []) []) 0.
(** in the table: both colours and the magnitude in their ranges *)
Definition counted3 (lo1 hi1 lo2 hi2 limmag : Q) (g : gal3) : Prop :=
  lo1 <= g3_c1 g /\ g3_c1 g < hi1 /\ lo2 <= g3_c2 g /\ g3_c2 g < hi2 /\ 12 <= g3_m g /\ g3_m g < limmag.
(** a table of the same density c everywhere *)
Definition flat_table (c : Q) (nm nc : nat) : list (list Q) := repeat (repeat c nc) nm.
