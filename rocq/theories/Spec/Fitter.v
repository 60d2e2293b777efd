(** What a fit should compute. *)
From Coq Require Import Reals.
From Verif.Base Require Import Py.
From Verif.Model Require Import BkgGen Fitter.
Local Open Scope R_scope.

(** the objective as a function of the parameters and of the errors handed to the fitter (column 0 in [err0]) *)
Definition objective {P} (S : fsetup P) (gs : list fgal) (err0 : list R) (p : P) : R := total S p gs (sig2s S p gs (e2s S p gs err0)).
(** column 0 with k times column 1 added *)
Definition drifted (k : nat) (gs : list fgal) (err0 : list R) : list R := map (fun gx => snd gx + INR k * fg_e1 (fst gx)) (combine gs err0).
(** the number of error-ratio parameters *)
Definition err_count (f : pflags) : nat := if pf_err f then 2 else 0.
(** the squared width of a galaxy's color: the scatter, at least the minimum, and the two squared errors, each times the squared
    ratio when the ratio of that band is fitted *)
Definition squared_width {P} (S : fsetup P) (p : P) (g : fgal) (err0 : R) : R :=
  let k (b : bool) := if b then fs_ratio S p g * fs_ratio S p g else 1 in
  let s := if Rlt_dec (fs_scat S p g) (fs_min S) then fs_min S else fs_scat S p g in
  s * s + k (fs_ind0 S) * err0 + k (fs_ind1 S) * fg_e1 g.
