(** What the centering properties speak about. *)
From Coq Require Import QArith Qabs.
From Verif.Base Require Import Py.
From Verif.Model Require Import Centering.
Local Open Scope nat_scope.

(** the numbers lie in [0,1] *)
Definition in_unit (l : list Q) : Prop := forall x, In x l -> (0 <= x /\ x <= 1)%Q.
(** the list does not increase *)
Definition descending (l : list Q) : Prop :=
  forall i j x y, i < j -> nth_error l i = Some x -> nth_error l j = Some y -> (y <= x)%Q.
(** a galaxy that may be a center: inside r_lambda and passing the other cuts *)
Definition may_be_center (rlam : Q) (n : wn) : Prop := (w_r n < rlam)%Q /\ w_cut n = true.

(** the redshift (and error) a galaxy is judged by: spectroscopic if wanted and available *)
Definition judged_z (uz : bool) (n : bn) : Q := if uz && Qlt_bool 0 (b_zspec n) then b_zspec n else b_zred n.
Definition judged_ze (uz : bool) (n : bn) : Q := if uz && Qlt_bool 0 (b_zspec n) then b_zspece n else b_zrede n.
Definition bcg_eligible (uz : bool) (rlam z : Q) (n : bn) : Prop :=
  (b_r n < rlam)%Q /\ ((8#10) < b_pmem n \/ Qabs (judged_z uz n - z) < 2 * judged_ze uz n)%Q.
