(** What each kind of run should do, as the documentation of the runs has it. *)
From Coq Require Import QArith Ascii String.
From Verif.Base Require Import Py.
From Verif.Model Require Import Names RunFlags.
From Coq Require Import List. Import ListNotations.

(** galaxies are shared among clusters: in the final run, in the second pass of the first member run, and where the user asks for it *)
Definition sharing (k : kind) : list bool :=
  match k with Percolation => [true] | Colormem => [false; true] | Runcat m => [m] | _ => [false] end.
(** members are recorded *)
Definition recording (k : kind) : list bool :=
  match k with Percolation | Zscan | Runcat _ => [true] | Colormem => [false; true] | _ => [false] end.
(** the redshift is corrected, with its density, and the derivatives of the richness are computed *)
Definition finished (k : kind) : bool := match k with Percolation | Zscan | Runcat _ => true | _ => false end.
(** the least richness of the clusters kept; [None]: all, failed ones (richness -1) included *)
Definition least (c : conf) (k : kind) : option Q :=
  match k with Firstpass _ => Some (f_minlambda c) | Percolation => Some (p_minlambda c) | Zscan => Some (z_minlambda c) | _ => None end.
(** kinds with the post-processing of the base class *)
Definition plain (k : kind) : Prop := match k with Colormem | Likelihoods => False | _ => True end.
(** a kind of run apart from the argument of the run *)
Definition same_kind (j k : kind) : Prop := match j, k with Runcat _, Runcat _ => True | _, _ => j = k end.
