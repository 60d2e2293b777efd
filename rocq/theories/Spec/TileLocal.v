(** Specification for C182: a part of a run and the whole run. *)
From Coq Require Import QArith ZArith.
From Verif.Base Require Import Py.
From Verif.Model Require Import Runner.
From Coq Require Import List. Import ListNotations.
Local Open Scope nat_scope.

(** [sel k]: cluster number k of the whole run is in the part; its number there *)
Definition number (sel : nat -> bool) (k : nat) : nat := List.length (filter sel (seq 0 k)).
(** The same cluster in the part: its galaxies have other numbers there ([r]), and it is worked on in the same way.  Its id may differ. *)
Definition same_cluster (r : nat -> nat) (proc proc' : cl -> list Q -> outcome) (c c' : cl) : Prop :=
  cl_nb c' = map r (cl_nb c) /\ forall pf, proc' c' pf = proc c pf.
(** [cs'] is the part [sel] of [cs], in the order of the whole *)
Definition part_of (r : nat -> nat) (proc proc' : cl -> list Q -> outcome) (sel : nat -> bool) (cs cs' : list cl) : Prop :=
  List.length cs' = number sel (List.length cs) /\
  forall k c, nth_error cs k = Some c -> sel k = true -> exists c', nth_error cs' (number sel k) = Some c' /\ same_cluster r proc proc' c c'.
(** no cluster of the part shares a galaxy with an earlier cluster outside of it *)
Definition closed (sel : nat -> bool) (cs : list cl) : Prop :=
  forall i k d c g, i < k -> nth_error cs i = Some d -> nth_error cs k = Some c -> sel i = false -> sel k = true -> In g (cl_nb d) -> In g (cl_nb c) -> False.
(** different galaxies of the part have different numbers in it *)
Definition numbered (r : nat -> nat) (sel : nat -> bool) (cs : list cl) : Prop :=
  forall i k d c g h, nth_error cs i = Some d -> nth_error cs k = Some c -> sel i = true -> sel k = true -> In g (cl_nb d) -> In h (cl_nb c) -> r g = r h -> g = h.
(** a chain: cluster i has the galaxies i and i + 1 *)
Definition link (i : nat) : cl := mkCL (Z.of_nat i) [i; S i].
(** a cluster that takes its two galaxies if the first is free *)
Definition greedy (c : cl) (pf : list Q) : outcome :=
  let b := match pf with x :: _ => Qeq_bool x 1 | [] => false end in
  mkOC false (if b then 20 else 0)%Q (map (fun _ => mkNO (if b then 1 else 0)%Q (if b then 1 else 0)%Q true true false) pf).
