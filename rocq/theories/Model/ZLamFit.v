(** The fit of the corrections of cluster redshifts: ZLambdaFitter, calibration/zlambdacal.py:24-186, over the reals.
    Inputs: [spl] (CubicSpline: nodes, values, position), the minimiser [opt] (scipy.optimize.fmin).  Simplified: the only values
    that are not finite come from a variance that is not positive and from exponentials that underflow, those of less than [-under]
    (745 for doubles). *)
From Coq Require Import Reals Lra.
From Verif.Base Require Import Py.
From Coq Require Import Lia List. Import ListNotations.
Local Open Scope R_scope.

(** 44-49: a cluster: redshift, offset, squared error, log of the richness *)
Record zobs := mkZO { o_z : R; o_dz : R; o_e2 : R; o_ll : R }.
(** 54-59; the error of the redshift is squared in 48 *)
Definition make_obs (z dz e ll : list R) : res (list zobs) :=
  if negb (Nat.eqb (List.length z) (List.length dz)) then Err ValueError
  else if negb (Nat.eqb (List.length z) (List.length e)) then Err ValueError
  else if negb (Nat.eqb (List.length z) (List.length ll)) then Err ValueError
  else Ok (map (fun q => mkZO (fst (fst (fst q))) (snd (fst (fst q))) (snd (fst q) ^ 2) (snd q)) (combine (combine (combine z dz) e) ll)).
Definition slice (i n : nat) (l : list R) : list R := firstn n (skipn i l).
(** 172-178 *)
Definition val (under : R) (v d : R) : R :=
  if Rle_dec v 0 then - 100
  else if Rlt_dec under (d ^ 2 / (2 * v)) then - 100
  else ln (1 / sqrt (2 * PI * v) * exp (- (d ^ 2 / (2 * v)))).
Section Fit.
  Variable spl : list R -> list R -> R -> R.
  Variable under : R.
  Variable nodes snodes : list R.
  Variable obs : list zobs.
  Variable min_scatter : R.
  Variable fd fs fc : bool.
  Variable p0d p0s p0c : list R.
  (** 98-111 *)
  Definition n_d : nat := if fd then List.length nodes else 0.
  Definition n_s : nat := if fs then List.length snodes else 0.
  Definition start : list R := (if fd then p0d else []) ++ (if fs then p0s else []) ++ (if fc then p0c else []).
  (** 154-170, with 117-125 *)
  Definition at_delta (pars : list R) : R -> R := spl nodes (if fd then slice 0 (List.length nodes) pars else p0d).
  Definition at_slope (pars : list R) : R -> R := spl snodes (if fs then slice n_d (List.length snodes) pars else p0s).
  Definition at_scatter (pars : list R) : R -> R := fun z => Rmax (spl snodes (if fc then slice (n_d + n_s) (List.length snodes) pars else p0c) z) min_scatter.
  (** 172-186 *)
  Definition objective (pars : list R) : R :=
    - fold_right Rplus 0 (map (fun o => val under (at_scatter pars (o_z o) ^ 2 + o_e2 o) (o_dz o - (at_delta pars (o_z o) + at_slope pars (o_z o) * o_ll o))) obs) +
    (if fc then (if existsb (fun x => if Rlt_dec x min_scatter then true else false) (slice (n_d + n_s) (List.length snodes) pars) then 10000 else 0) else 0).
  (** 113-138 *)
  Definition zfit (opt : (list R -> R) -> list R -> list R) : res (list (list R)) :=
    if negb (fd || fs || fc) then Err ValueError
    else let pars := opt objective start in
      Ok ((if fd then [slice 0 (List.length nodes) pars] else []) ++ (if fs then [slice n_d (List.length snodes) pars] else []) ++ (if fc then [slice (n_d + n_s) (List.length snodes) pars] else [])).
End Fit.
