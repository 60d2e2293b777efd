(** What a row of parameters should be. *)
From Coq Require Import QArith Sorting.Sorted.
From Verif.Base Require Import Py.
From Verif.Model Require Import Names Util RedPars.
From Coq Require Import List. Import ListNotations.
Local Open Scope nat_scope.

(** the settings make sense: a range, sizes that are not zero or less, one for each color, and no color whose largest node
    (none if negative) is at or below the lower end *)
Record sound (c : settings) : Prop := mkSound {
  so_range : (0 <= s_z0 c < s_z1 c)%Q;
  so_sizes : forall s, In s ([s_pivot c; s_cov c; s_corr c; s_corrslope c] ++ s_color c ++ s_slope c) -> (0 < s)%Q;
  so_colors : List.length (s_color c) = s_nmag c - 1 /\ List.length (s_slope c) = s_nmag c - 1 /\ List.length (s_max c) = s_nmag c - 1;
  so_max : forall m, In m (s_max c) -> (m < 0)%Q \/ (s_z0 c < m)%Q }.
(** nodes over the range: increasing and reaching the upper end *)
Definition spans (c : settings) (xs : list Q) : Prop := StronglySorted Qlt xs /\ xs <> [] /\ (last xs 0 == s_z1 c)%Q.
(** a column of the row *)
Definition column_is (r : row) (name : str) (values : list Q) : Prop := exists sh, get r name = Some (sh, values).
