(** What the member preparation should write, as a comprehension. *)
From Coq Require Import QArith Qabs String.
From Verif.Base Require Import Py.
From Verif.Model Require Import Members.
Local Open Scope nat_scope.
Local Open Scope list_scope.

(** the redshift of the mode *)
Definition zof (cg : bool) (c : cluster) : Q := if cg then c_cgz c else c_zinit c.
Definition good_cluster (f : conf) (cg : bool) (c : cluster) : Prop :=
  (f_minlambda f < c_lambda c / c_scale c /\ 0 < c_scale c /\ Qabs (zof cg c - c_zl c) < f_nsig f * c_zle c)%Q.
Definition good_member (f : conf) (m : member) : Prop :=
  (f_pcut f < m_p m * m_ti m * m_tr m \/ f_pcut f < m_pcol m)%Q.
(** the member [m] has the row [r], its cluster being [c] *)
Definition row_of (cg : bool) (c : cluster) (m : member) (extra : Q) (r : row) : Prop :=
  (o_z r == zof cg c + extra)%Q /\ o_zl r = c_zl c /\ o_p r = m_p m /\ o_pcol r = m_pcol m /\
  (o_central r = true <-> (m_r m < 1 # 10000)%Q) /\ o_phot r = m_phot m.
