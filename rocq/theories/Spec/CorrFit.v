(** What the fit of the redshift corrections should do. *)
From Coq Require Import Reals Permutation Sorted.
From Verif.Base Require Import Py.
From Verif.Model Require Import CorrFit.
From Coq Require Import List. Import ListNotations.
Local Open Scope R_scope.

Definition count {A} (p : A -> bool) (l : list A) : nat := List.length (filter p l).
(** as many values as nodes *)
Definition matches (nd : cnodes) (p : cpars) : Prop :=
  List.length (cp_mean p) = List.length (nd_mean nd) /\ List.length (cp_slope p) = List.length (nd_slope nd) /\
  List.length (cp_r p) = List.length (nd_r nd) /\ List.length (cp_bkg p) = List.length (nd_bkg nd).
(** error factors between 0.1 and 2, background variances not negative *)
Definition allowed (p : cpars) : Prop := (forall v, In v (cp_r p) -> 1/10 <= v <= 2) /\ (forall v, In v (cp_bkg p) -> 0 <= v).
(** the sets of values that were asked for, in order *)
Definition groups (mean slope r bkg : bool) (p : cpars) : list (list R) :=
  ((if mean then [cp_mean p] else []) ++ (if slope then [cp_slope p] else []) ++ (if r then [cp_r p] else []) ++ (if bkg then [cp_bkg p] else []))%list.
Definition within (b : option R * option R) (v : R) : Prop :=
  (match fst b with Some l => l <= v | None => True end) /\ (match snd b with Some u => v <= u | None => True end).
(** a bounded minimiser: from a start within the bounds it returns a point within them that is not worse *)
Definition optimiser (minimize : (list R -> R) -> list R -> list (option R * option R) -> list R) : Prop :=
  forall f p0 bs, Forall2 within bs p0 -> Forall2 within bs (minimize f p0 bs) /\ f (minimize f p0 bs) <= f p0.
(** st sorts the values *)
Definition sorts (st : list nat) (vals : list R) : Prop :=
  Permutation st (seq 0 (List.length vals)) /\ StronglySorted Rle (map (fun i => nth i vals 0) st).
