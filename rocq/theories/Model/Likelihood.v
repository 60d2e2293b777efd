(** The likelihood of a cluster: run_likelihoods.py:180-197, 226-228 and run_zscan.py:163-170, with the
    scale factor of cluster.py:530. *)
From Coq Require Import Reals Lra.
From Verif.Base Require Import Py.
From Verif.Model Require Import BkgGen.
Local Open Scope R_scope.

(** a floating-point result: a number, plus infinity, or not a number *)
Inductive xr := Fin (v : R) | Inf | NaN.
Definition xadd (a b : xr) : xr :=
  match a, b with
  | NaN, _ | _, NaN => NaN
  | Inf, _ | _, Inf => Inf
  | Fin x, Fin y => Fin (x + y)
  end.
(** - np.log(1.0 - p) *)
Definition neglog (p : R) : xr := if Rltb p 1 then Fin (- ln (1 - p)) else if Req_EM_T p 1 then Inf else NaN.
Definition xsum (l : list xr) : xr := fold_right xadd (Fin 0) l.
(** a neighbour: radius and pmem *)
Record nbr := mk_nbr { b_r : R; b_p : R }.
Definition psum (l : list nbr) : R := fold_right (fun n s => b_p n + s) 0 l.
(** np.min(neighbors.r) = neighbors.r[argmin]; there is at least one neighbour *)
Definition minr (l : list nbr) : R := match l with [] => 0 | n :: t => fold_left (fun m x => Rmin m (b_r x)) t (b_r n) end.
(** cluster.py:530 *)
Definition scaleval (lam : R) (l : list nbr) : R := Rabs (lam / psum l).
(** run_likelihoods.py:185-186 *)
Definition incut (l : list nbr) : list nbr := filter (fun n => Rltb 0 (b_p n) && Rltb (minr l) (b_r n)) l.
(** run_likelihoods.py:188-197: [None] for a bad cluster *)
Definition lnlamlike (minlambda lam : R) (l : list nbr) : option xr :=
  if Rltb lam minlambda || (length (incut l) <? 3)%nat then None
  else Some (xadd (Fin (- lam / scaleval lam l)) (xsum (map (fun n => neglog (b_p n)) (incut l)))).
(** run_zscan.py:163-170 *)
Definition zcut (l : list nbr) : list nbr := filter (fun n => Rltb 0 (b_p n) && Rltb (1 / 1000000) (b_r n) && Rltb (b_p n) 1) l.
Definition zscan_like (lam : R) (l : list nbr) : xr :=
  if (0 <? length (zcut l))%nat then xadd (Fin (- lam / scaleval lam l)) (xsum (map (fun n => neglog (b_p n)) (zcut l)))
  else Fin (-1).
