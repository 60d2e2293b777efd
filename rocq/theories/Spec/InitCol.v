(** Specification for C146. *)
From Coq Require Import QArith Ascii String Sorted.
From Verif.Base Require Import Py.
From Verif.Model Require Import Names.
From Coq Require Import List. Import ListNotations.
Local Open Scope Q_scope.

(** equal but for the case of letters *)
Definition small : str := list_ascii_of_string "abcdefghijklmnopqrstuvwxyz".
Definition capital : str := list_ascii_of_string "ABCDEFGHIJKLMNOPQRSTUVWXYZ".
Definition same_char (x y : ascii) : Prop := x = y \/ In (x, y) (combine small capital) \/ In (y, x) (combine small capital).
Definition same_band (a b : str) : Prop := Forall2 same_char a b.
(** the characters of a band's name: neither a comma nor a dash, and the last one not a blank *)
Definition plain (b : str) : Prop := ~ In ","%char b /\ ~ In "-"%char b /\ exists s c, b = (s ++ [c])%list /\ ~ In c (map ascii_of_nat [32; 9; 10; 11; 12; 13]%nat).
(** column [i] of a template is the colour of bands [i] and [i+1] *)
Definition pair_at (bands : list str) (i : nat) (b1 b2 : str) : Prop :=
  exists a b, nth_error bands i = Some a /\ nth_error bands (S i) = Some b /\ same_band a b1 /\ same_band b b2.
(** a template table with as many colours in each row as bands less one, at increasing redshifts *)
Definition table_ok (nbands : nat) (z : list Q) (rows : list (list Q)) : Prop :=
  StronglySorted Qlt z /\ (2 <= List.length z)%nat /\ List.length rows = List.length z /\ forall r, In r rows -> S (List.length r) = nbands.
