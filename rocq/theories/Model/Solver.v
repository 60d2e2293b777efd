(** The richness solver: solver_nfw/solver_nfw.c:8-69, nfw_weights.c:8-76, solver_nfw_pywrap.c:92-141.
    Arithmetic is exact (R instead of double); [erf] is a parameter. *)
From Coq Require Import Reals Lra.
From Verif.Base Require Import Py.
From Verif.Model Require Import BkgGen.
Local Open Scope R_scope.

(** A background value is a number or infinite (magnitudes off the background grid, background.py:96-99). *)
Inductive bval := Binf | Bval (b : R).
Record gal := mkG { g_u : R; g_b : bval; g_r : R; g_w : R }.     (* ucounts, bcounts, r, w *)
Record garr := mkGA { a_p : R; a_wt : R; a_th : R }.            (* p, wt, theta_r *)
Record senv := mkSE { e_erf : R -> R; e_r0 : R; e_beta : R; e_rsig : R; e_c0 : R; e_c1 : R; e_c2 : R; e_c3 : R }.

(** nfw_weights.c:21 *)
Definition radius (e : senv) (lam : R) : R := e_r0 e * Rpower (lam / 100) (e_beta e).
(** nfw_weights.c:24-27 *)
Definition nfwnorm (rl : R) : R :=
  let l := ln rl in
  exp (165169/100000 - 547850/1000000 * l + 138202/1000000 * l^2 - 719021/10000000 * l^3
       - 158241/10000000 * l^4 - 854985/1000000000 * l^5).
(** nfw_weights.c:32-36: the formula and the reset of NaN or infinity to 0.  x/(x+inf) is 0. *)
Definition pval (lam n : R) (g : gal) : R :=
  match g_b g with
  | Binf => 0
  | Bval b => if Req_EM_T (lam * g_u g * n + b) 0 then 0 else (lam * g_u g * n) / (lam * g_u g * n + b)
  end.
(** nfw_weights.c:55-66 *)
Definition soft_theta (e : senv) (rl r : R) : R :=
  if Rltb r (rl - 5 * e_rsig e) then 1
  else if Rltb (rl + 5 * e_rsig e) r then 0
  else 1/2 + 1/2 * e_erf e ((rl - r) * (1 / (sqrt 2 * e_rsig e))).

(** nfw_weights.c:29-72, one galaxy *)
Definition weights1 (e : senv) (upd : bool) (lam : R) (ga : gal * garr) : garr :=
  let '(g, a) := ga in
  let rl := radius e lam in
  let p := if upd then pval lam (nfwnorm rl) g else a_p a in
  if Rltb 0 (e_rsig e) then
    let th := soft_theta e rl (g_r g) in
    mkGA p (if upd then p * g_w g * th else a_wt a) th
  else if Rltb (g_r g) rl then mkGA p (if upd then p * g_w g else a_wt a) 1
  else mkGA p 0 (a_th a).
Definition nfw_weights (e : senv) (upd : bool) (lam : R) (gs : list gal) (arr : list garr) : list garr :=
  map (weights1 e upd lam) (combine gs arr).

(** solver_nfw.c:24-33 / 36-43: sum of the weights plus lambda times the clipped mask correction *)
Definition cval (e : senv) (rl : R) : R := Rmax 0 (e_c3 e + e_c2 e * rl + e_c1 e * rl * rl + e_c0 e * rl * rl * rl).
Definition sumwt (arr : list garr) : R := fold_left (fun s a => s + a_wt a) arr 0.
Definition total (e : senv) (lam : R) (arr : list garr) : R := sumwt arr + lam * cval e (radius e lam).

(** [s_olo = None] stands for outlo = -1.0 (a stored outlo is at least 0.9, so never negative). *)
Record sst := mkSS { s_lo : R; s_hi : R; s_olo : option R; s_arr : list garr }.

(** solver_nfw.c:21-53, one iteration *)
Definition solve_step (e : senv) (gs : list gal) (s : sst) : sst :=
  let mid := (s_hi s + s_lo s) / 2 in
  let '(olo, arr) := match s_olo s with
                     | Some o => (o, s_arr s)
                     | None => let a := nfw_weights e true (s_lo s) gs (s_arr s) in (total e (s_lo s) a, a)
                     end in
  let arr2 := nfw_weights e true mid gs arr in
  let omid := total e mid arr2 in
  let olo' := if Rltb olo 1 then 9/10 else olo in
  if Rltb 0 ((olo' - s_lo s) * (omid - mid))
  then mkSS mid (s_hi s) None arr2
  else mkSS (s_lo s) mid (Some olo') arr2.

(** solver_nfw.c:20; None: still looping when the fuel is used up *)
Fixpoint solve_loop (fuel : nat) (tol : R) (e : senv) (gs : list gal) (s : sst) : option sst :=
  if Rltb (2 * tol) (Rabs (s_hi s - s_lo s)) then
    match fuel with O => None | S n => solve_loop n tol e gs (solve_step e gs s) end
  else Some s.

(** solver_nfw.c:16-18; output arrays are zero-filled, solver_nfw_pywrap.c:105-107 *)
Definition solve_init (gs : list gal) : sst := mkSS (1/2) 2000 None (map (fun _ => mkGA 0 0 0) gs).

Record sres := mkSR { o_lam : R; o_rlam : R; o_arr : list garr }.
(** solver_nfw.c:55-68 *)
Definition solve_end (e : senv) (gs : list gal) (s : sst) : sres :=
  let lam := (s_lo s + s_hi s) / 2 in
  let arr := nfw_weights e false lam gs (s_arr s) in
  if Rltb lam 1 then mkSR (-1) (-1) arr else mkSR lam (radius e lam) arr.
Definition solve (fuel : nat) (tol : R) (e : senv) (gs : list gal) : option sres :=
  option_map (solve_end e gs) (solve_loop fuel tol e gs (solve_init gs)).
