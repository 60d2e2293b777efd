From Verif.Base Require Import Py.
From Verif.Model Require Import ZredTask.

(** The table was built from complete files only. *)
Definition all_complete (c : cfg) (fs : list fstate) : Prop :=
  List.length fs = nfile c /\ forall f, In f fs -> f = Complete.
(** Every table pixel belongs to a task. *)
Definition covered (c : cfg) : Prop := forall p, p < nfile c -> own c p < ntask c.
(** A task that may hold its pixel lock, or the global lock. *)
Definition in_pixel (x : pc) : Prop := match x with Writing _ | InFile _ _ | Dead => True | _ => False end.
Definition in_global (x : pc) : Prop := match x with GlobF | GlobL _ | Make | RelG | Dead => True | _ => False end.
