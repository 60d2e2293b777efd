From Coq Require Import Reals Lra.
From Verif.Base Require Import Py.
From Verif.Model Require Import BkgGen Solver.
Local Open Scope R_scope.

(** The cluster radius at a richness, the normalisation of the profile for that radius, the membership probability of
    one galaxy lambda u n / (lambda u n + b) (0 where b is infinite or the sum is 0), its radial weight, and the richness
    equation lambda = sum_i w_i p_i theta_i + lambda c, with c the missing fraction (never negative). *)
Definition cluster_radius (e : senv) (lam : R) : R := e_r0 e * Rpower (lam / 100) (e_beta e).
Definition profile_norm (r : R) : R :=
  let l := ln r in
  exp (1.65169 - 0.547850 * l + 0.138202 * l^2 - 0.0719021 * l^3 - 0.0158241 * l^4 - 0.000854985 * l^5).
Definition prob (e : senv) (lam : R) (g : gal) : R :=
  match g_b g with
  | Binf => 0
  | Bval b => let s := lam * g_u g * profile_norm (cluster_radius e lam) in
              if Req_EM_T (s + b) 0 then 0 else s / (s + b)
  end.
Definition radial (e : senv) (lam : R) (g : gal) : R :=
  let d := cluster_radius e lam - g_r g in
  if Rlt_dec 0 (e_rsig e)
  then if Rlt_dec (5 * e_rsig e) d then 1
       else if Rlt_dec d (- 5 * e_rsig e) then 0
       else (1 + e_erf e (d / (sqrt 2 * e_rsig e))) / 2
  else if Rlt_dec 0 d then 1 else 0.
Definition missing (e : senv) (lam : R) : R :=
  let r := cluster_radius e lam in Rmax 0 (e_c0 e * r^3 + e_c1 e * r^2 + e_c2 e * r + e_c3 e).
Fixpoint Rsum (l : list R) : R := match l with [] => 0 | x :: t => x + Rsum t end.
Definition richness_rhs (e : senv) (gs : list gal) (lam : R) : R :=
  Rsum (map (fun g => prob e lam g * g_w g * radial e lam g) gs) + lam * missing e lam.

(** Guard: the "stability at low end" reset (out < 1 becomes 0.9) does not change the sign of out(x) - x. *)
Definition low_end_ok (out : R -> R) : Prop := forall x, 9/10 <= x < 1 -> out x <= x \/ 1 <= out x.

(** Physical inputs: filter, background and weight are not negative, and |erf| <= 1. *)
Definition gal_ok (g : gal) : Prop := 0 <= g_u g /\ 0 <= g_w g /\ (forall b, g_b g = Bval b -> 0 <= b).
Definition erf_ok (e : senv) : Prop := forall x, -1 <= e_erf e x <= 1.
