(** What the depth and error model promise. *)
From Coq Require Import Reals Lra.
From Verif.Base Require Import Py.
From Verif.Model Require Import BkgGen Depth.
Local Open Scope R_scope.

(** the magnitude and its error that come out for a magnitude, without noise draws *)
Definition mag_out (d : depth) (ratio sigma0 m : R) : R := fst (apply_errormodel d ratio sigma0 None OMag None m).
Definition err_out (d : depth) (ratio sigma0 m : R) : R := snd (apply_errormodel d ratio sigma0 None OMag None m).
(** a sensible depth: time and number of sigmas are positive *)
Definition sensible (d : depth) : Prop := 0 < d_exp d /\ 0 < d_nsig d.
(** the implied sky is above its floor of 0.001 *)
Definition sky_ok (d : depth) : Prop := 1/1000 <= fsky_raw d.
(** the error in magnitudes of an [n]-sigma detection *)
Definition nsigma_error (n : R) : R := 25/10 / ln 10 / n.
(** same depth, other exposure time *)
Definition with_exp (d : depth) (t : R) : depth :=
  {| d_lim := d_lim d; d_zp := d_zp d; d_exp := t; d_nsig := d_nsig d |}.
(** magnitudes whose errors are exactly those of a depth *)
Definition exact_data (d : depth) (data : list (R * R)) : Prop :=
  forall m e, In (m, e) data -> e = err_out d 1 0 m.
