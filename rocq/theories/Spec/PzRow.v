(** What the catalogue holds of the redshift of a cluster. *)
From Coq Require Import String Reals.
From Verif.Base Require Import Py.
From Verif.Model Require Import PzRow.
From Verif.Spec Require Import ZCorr.
Local Open Scope R_scope.

(** the columns of a configuration that matter here, none of them called pzvals *)
Definition with_pz (m : catmem) : Prop :=
  (forall x, In x ["lambda"; "z_lambda"; "z_lambda_e"; "pzbins"; "pz"]%string -> In x (m_cols m)) /\ ~ In "pzvals"%string (m_cols m).
(** row i holds richness lam, redshift z with error e, and a distribution of the redshift: positive values on a uniform grid *)
Definition holds (simps : list R -> list R -> R) (m : catmem) (i : nat) (lam z e : R) (bins vals : list R) : Prop :=
  m_cell m i "lambda" = [lam] /\ m_cell m i "z_lambda" = [z] /\ m_cell m i "z_lambda_e" = [e] /\ m_cell m i "pzbins" = bins /\
  m_cell m i "pz" = vals /\ 0 < e /\ (2 <= List.length bins)%nat /\ List.length vals = List.length bins /\
  (exists h, runiform (List.length bins) h bins) /\ positive_mass simps vals.
(** an integration rule whose value on uniform grids is proportional to the spacing *)
Definition spacing_scaled (simps : list R -> list R -> R) : Prop :=
  forall ys n h g h' g', (2 <= n)%nat -> runiform n h g -> runiform n h' g' -> simps ys g * h' = simps ys g' * h.
(** [m'] is [m] but for those columns of row [i] *)
Definition only_row (m m' : catmem) (i : nat) (xs : list string) : Prop :=
  m_cols m' = m_cols m /\ forall j x, j <> i \/ ~ In x xs -> m_cell m' j x = m_cell m j x.
