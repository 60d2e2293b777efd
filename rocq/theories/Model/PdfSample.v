(** utilities.sample_from_pdf, utilities.py:883-919, in exact arithmetic. *)
From Coq Require Import QArith Qround.
From Verif.Base Require Import Py.
Local Open Scope Q_scope.

(** lines 907-910: pdf /= sum, cumsum, scaled to the number of points and truncated *)
Definition cdfi (pdf : list Q) : list Z :=
  map (fun c => Qfloor (c * inject_Z (Z.of_nat (List.length pdf)))) (cumsum (map (fun p => p / Qsum pdf) pdf)).
(** line 916: the first index with cdfi >= r *)
Fixpoint first_ge (r : Z) (l : list Z) : option nat :=
  match l with [] => None | c :: t => if Z.leb r c then Some 0%nat else option_map S (first_ge r t) end.
(** lines 912-917 for one uniform deviate [u] *)
Definition sample_index (pdf : list Q) (u : Q) : option nat := first_ge (Qfloor (u * inject_Z (Z.of_nat (List.length pdf)))) (cdfi pdf).
Definition sample (x pdf : list Q) (u : Q) : res Q :=
  match sample_index pdf u with Some i => match nth_error x i with Some v => Ok v | None => Err IndexError end | None => Err IndexError end.
