(** What loading a configuration may depend on and change. *)
From Coq Require Import ZArith String QArith.
From Verif.Base Require Import Py.
From Verif.Model Require Import Config.
Local Open Scope string_scope.
Local Open Scope nat_scope.

(** options filled from other options, and options read from a centering file *)
Definition filled : list string := ["limmag_catalog"; "specfile_train"; "redmagic_zrange"; "outpath"].
Definition from_wcen : list string := map fst (wcen_columns ++ phi1_columns)%list.
(** options whose expected length is fixed while loading *)
Definition sized : list string :=
  ["calib_colormem_colormodes"; "calib_colormem_sigint"; "calib_color_nodesizes"; "calib_slope_nodesizes"; "calib_color_maxnodes"; "calib_covmat_maxnodes";
   "redmagic_n0s"; "redmagic_etas"; "redmagic_names"; "redmagic_zmaxes"; "vlim_bands"; "vlim_nsigs"; "redmagic_zrange"].
(** the states of the option descriptors in a running program: after any sequence of assignments and loads *)
Inductive reachable : store -> Prop :=
| R_start : reachable fresh_store
| R_assign s i n v s' : reachable s -> assign s i n v = Ok s' -> reachable s'
| R_load s E d o : reachable s -> reachable (fst (load E d o s)).
Definition keys (d : dict) : list string := map fst d.
Definition known (n : string) : bool := match find_field n with Some _ => true | None => false end.
