(** What the first pass is meant to do, independently of how it is computed. *)
From Coq Require Import QArith Qabs List Arith ZArith.
From Verif.Model Require Import FirstPass.
Import ListNotations.

(** a seed is usable: photometric redshift in the configured range and an acceptable chi-squared *)
Definition usable (f : fconf) (zred chisq : Q) : Prop :=
  (fc_zlo f <= zred)%Q /\ (zred <= fc_zhi f)%Q /\ (chisq < fc_chisqmax f)%Q.

(** [keeps p l l']: l' consists of exactly the elements of l with p, in the order of l *)
Inductive keeps {A} (p : A -> Prop) : list A -> list A -> Prop :=
| keeps_nil : keeps p [] []
| keeps_yes x l l' : p x -> keeps p l l' -> keeps p (x :: l) (x :: l')
| keeps_no x l l' : ~ p x -> keeps p l l' -> keeps p (x :: l) l'.

(** the cluster made of a seed *)
Definition made_of_seed (f : fconf) (s : seed) (c : crow) : Prop :=
  c_ra c = sd_ra s /\ c_dec c = sd_dec s /\ c_mag c = sd_mag s /\ c_refmag c = sd_refmag s /\ c_zred c = sd_zred s /\
  c_zred_e c = sd_zred_e s /\ c_zred_chisq c = sd_chisq s /\ c_chisq c = sd_chisq s /\ c_ebv c = sd_ebv s /\
  c_zspec c = sd_zspec s /\
  (fc_spec f = true -> c_z c = sd_zspec s /\ c_zinit c = sd_zspec s) /\
  (fc_spec f = false -> c_z c = sd_zred s /\ c_zinit c = sd_zred s).
(** the cluster made of a galaxy *)
Definition made_of_gal (g : gal) (c : crow) : Prop :=
  c_ra c = g_ra g /\ c_dec c = g_dec g /\ c_mag c = g_mag g /\ c_refmag c = g_refmag g /\ c_zred c = g_zred g /\
  c_zred_e c = g_zred_e g /\ c_zred_chisq c = g_chisq g /\ c_chisq c = g_chisq g /\ c_z c = g_zred g /\ c_zinit c = g_zred g.

(** a measurement: the redshift it was made at, richness, scale value, redshift found, its error, iterations *)
Record meas := mkM { m_at : Q; m_lam : Q; m_scale : Q; m_z : Q; m_ze : Q; m_n : nat }.
Definition measured (o : oracle) (k : nat) (m : meas) : Prop :=
  o_rich o k (m_at m) = (m_lam m, m_scale m) /\ o_zl o k (m_at m) = (m_z m, m_ze m, m_n m).
(** rich enough, and the redshift found is in the range *)
Definition acceptable (f : fconf) (m : meas) : Prop :=
  (Qabs (fc_minlambda f / m_scale m) <= m_lam m)%Q /\ (fc_zlo f <= m_z m)%Q /\ (m_z m <= fc_zhi f)%Q.
(** where the next measurement is made: at the redshift just found (at least 0.01), or where the last was *)
Definition next_at (f : fconf) (m : meas) : Q :=
  if fc_keepz f then m_at m else if Qlt_le_dec (m_z m) (1 # 100) then 1 # 100 else m_z m.
(** [course f o k z ms z']: the measurements ms, the first of them the kth, made in succession from z, ending at z' *)
Fixpoint course (f : fconf) (o : oracle) (k : nat) (z : Q) (ms : list meas) (z' : Q) : Prop :=
  match ms with
  | [] => z' = z
  | m :: t => m_at m = z /\ measured o k m /\ course f o (S k) (next_at f m) t z'
  end.
(** how many measurements are asked for *)
Definition wanted (f : fconf) : nat := if fc_spec f then 1 else Z.to_nat (fc_niter f).
(** the nearest of the neighbors, the first of several *)
Definition nearest (nb : list nbr) (x : nbr) : Prop :=
  exists k, nth_error nb k = Some x /\
    (forall j y, nth_error nb j = Some y -> (fst x <= fst y)%Q) /\
    (forall j y, nth_error nb j = Some y -> (j < k)%nat -> (fst x < fst y)%Q).
