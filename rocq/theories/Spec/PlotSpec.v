(** What the diagnostic should show. *)
From Coq Require Import QArith Qabs.
From Verif.Base Require Import Py.
From Verif.Model Require Import Maskgals PlotSpec.
From Coq Require Import List. Import ListNotations.
Local Open Scope Q_scope.

(** the redshifts of the members of a cluster, those that have one *)
Definition redshifts_of (id : Z) (ms : list (Z * Q)) : list Q := map snd (filter (fun m => Z.eqb (fst m) id && Qlt_bool 0 (snd m)) ms).
(** the redshift of a cluster: the median over its members, 0 without any *)
Definition should (ms : list (Z * Q)) (id : Z) : Q := match redshifts_of id ms with [] => 0 | l => medianQ l end.
(** median absolute deviation *)
Definition mad (l : list Q) : Q := medianQ (map (fun d => Qabs (d - medianQ l)) l).
