(** What matching spectra to galaxies means. *)
From Coq Require Import Reals Lra.
From Verif.Base Require Import Py.
From Verif.Model Require Import Redmagic.
From Coq Require Import List.
Import ListNotations.
Local Open Scope R_scope.

(** [find] gives the entry of a list of positions that is closest to a point, among those within [rad] of it *)
Definition closest {A} (dist : A -> R * R -> R) (rad : R) (find : list A -> R -> R -> option nat) : Prop :=
  forall l x y,
    match find l x y with
    | Some i => exists p, nth_error l i = Some p /\ dist p (x, y) < rad /\ forall q, In q l -> dist p (x, y) <= dist q (x, y)
    | None => forall q, In q l -> rad <= dist q (x, y)
    end.
Definition at_gal (g : gal) : R * R := (g_ra g, g_dec g).
Definition at_spec (s : spectrum) : R * R := (s_ra s, s_dec s).
(** [s] is a spectrum of galaxy number [i]: near enough, and no other galaxy is closer to it *)
Definition spectrum_of (dist : R * R -> R * R -> R) (rad : R) (gals : list gal) (i : nat) (s : spectrum) : Prop :=
  exists g, nth_error gals i = Some g /\ dist (at_gal g) (at_spec s) < rad /\
    forall h, In h gals -> dist (at_gal g) (at_spec s) <= dist (at_gal h) (at_spec s).
(** the only one: every other galaxy is further away *)
Definition only_of (dist : R * R -> R * R -> R) (rad : R) (gals : list gal) (i : nat) (s : spectrum) : Prop :=
  exists g, nth_error gals i = Some g /\ dist (at_gal g) (at_spec s) < rad /\
    forall j h, nth_error gals j = Some h -> j <> i -> dist (at_gal g) (at_spec s) < dist (at_gal h) (at_spec s).
