(** What the mask galaxies should be, in words of densities, counts and areas. *)
From Coq Require Import QArith.
From Verif.Base Require Import Py.
From Verif.Model Require Import Maskgals.
From Coq Require Import List. Import ListNotations.
Local Open Scope Q_scope.

(** the share of a density up to and including grid point i *)
Definition share (pdf : list Q) (i : nat) : Q := Qsum (firstn (S i) pdf) / Qsum pdf.

(** a ring of the sky in square degrees, [frac] of it unmasked *)
Definition ring_area (pi a0 a1 scale frac : Q) : Q := pi * (a1 * a1 - a0 * a0) / (scale * scale) * frac.

(** the mean of the weight of a mask galaxy that falls in a cell with probability proportional to its chisq and luminosity
    weights; [delta]: size of a cell *)
Definition expected_weight (cells : list lgal) : Q :=
  let F := Qsum (map (fun g => lg_cpdf g * lg_lpdf g) cells) in
  Qsum (map (fun g => (lg_cpdf g * lg_lpdf g) / F * weight g) cells).
Definition sigma_of (g : lgal) : Q := match lg_sigma g with Some s => s | None => 0 end.
