(** What the consolidation of runs on input clusters promises. *)
From Coq Require Import String ZArith.
From Verif.Base Require Import Py.
From Verif.Model Require Import RuncatCons.
From Coq Require Import Lia List. Import ListNotations.
Local Open Scope Z_scope.

(** the files of one run: all of the same nside, each pixel once *)
Definition one_run (nside : Z) (files : list cfile) : Prop :=
  (forall f, In f files -> exists h, f_name f = Some (nside, h)) /\ NoDup (map f_name files).
(** the files hold parts of one input: a cluster of an identifier has one position, and each file has it once *)
Definition one_input (files : list cfile) : Prop :=
  (forall f, In f files -> NoDup (map r_id (f_cat f))) /\
  (forall f g r s, In f files -> In g files -> In r (f_cat f) -> In s (f_cat g) -> r_id r = r_id s -> r_pos r = r_pos s).
(** the same cluster, but for its spectroscopic redshift *)
Definition same (r s : row) : Prop := r_id r = r_id s /\ r_pos r = r_pos s /\ r_pay r = r_pay s.
