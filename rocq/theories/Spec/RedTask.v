(** Specification for C164. *)
From Verif.Base Require Import Py.
From Verif.Model Require Import RedTask.
From Coq Require Import List. Import ListNotations.

(** a selection that looks at every galaxy by itself: keep those that pass, write one row for each *)
Definition by_galaxy {Gal Row Rnd} (e : tenv Gal Row Rnd) (keep : nat -> Gal -> bool) (row : nat -> Gal -> Row) : Prop :=
  forall m gals, te_sel e m gals = Ok (map (row m) (filter (keep m) gals)).
(** the galaxies of a list of pixels that could be read *)
Definition pixels_of {Gal} (ps : list (list Gal)) : list (res (list Gal)) := map (fun p => Ok p) ps.
(** how many random points are made for a catalog *)
Definition wanted_points (n : option nat) (ngal : nat) : nat := match n with None => 10 * ngal | Some k => k end.
