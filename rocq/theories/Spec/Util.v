(** Specifications of the numerical helpers, in terms of geometry only. *)
From Coq Require Import QArith Qround Qabs Sorting.Sorted.
From Verif.Base Require Import Py.
From Verif.Model Require Import Util.
Local Open Scope nat_scope.

(** (x,y) lies on the line through (x0,v0) and (x1,v1) *)
Definition on_line (x0 v0 x1 v1 x y : Q) : Prop := ((y - v0) * (x1 - x0) == (x - x0) * (v1 - v0))%Q.

(** Cloud in cell: a sample at [pos] is a box of width one centred on it; cell k is the interval [k,k+1].  The weight of
    the cell is the length of the overlap. *)
Definition overlap (pos : Q) (k : Z) : Q :=
  Qmax2 0%Q (Qmin2 (pos + (1#2)) (inject_Z k + 1) - Qmax2 (pos - (1#2)) (inject_Z k))%Q.
(** on a ring of n cells *)
Definition overlap_ring (n : Z) (pos : Q) (k : Z) : Q := (overlap pos (k - n) + overlap pos k + overlap pos (k + n))%Q.
Definition weight1 (isolated : bool) (n : Z) (pos : Q) (k : Z) : Q := if isolated then overlap pos k else overlap_ring n pos k.
(** several axes: the product *)
Fixpoint weight (isolated : bool) (ns : list Z) (ps : list Q) (ks : list Z) : Q :=
  match ns, ps, ks with n :: ns', p :: ps', k :: ks' => (weight1 isolated n p k * weight isolated ns' ps' ks')%Q | _, _, _ => 1%Q end.
(** the position of cell (kx, ky, kz) in the flattened array *)
Fixpoint flat (ns ks : list Z) : Z := match ns, ks with n :: ns', k :: ks' => (k + n * flat ns' ks')%Z | _, _ => 0%Z end.
Definition cell_of (ns ks : list Z) : Prop := Forall2 (fun n k => (0 <= k < n)%Z) ns ks.
(** a sample inside the grid *)
Definition inside (ns : list Z) (ps : list Q) : Prop := Forall2 (fun n p => (0 <= p)%Q /\ (p < inject_Z n)%Q) ns ps.
(** a sample whose box lies inside the grid *)
Definition well_inside (ns : list Z) (ps : list Q) : Prop := Forall2 (fun n p => ((1#2) <= p)%Q /\ (p + (1#2) <= inject_Z n)%Q) ns ps.
