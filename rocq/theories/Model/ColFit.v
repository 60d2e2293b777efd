(** Cluster.calc_richness_fit: cluster.py:632-778, and RunColormem._process_cluster: run_colormem.py:113-152 (from the
    choice of the mode on), cluster_runner.py:304-311.
    The color filter fitted to the red galaxies, the radial and luminosity filters and the background are parameters
    ([filt], as in Richness), as is the fit of the colors itself. *)
From Coq Require Import Reals Lra.
From Verif.Base Require Import Py.
From Verif.Model Require Import BkgGen Solver Richness.
Local Open Scope R_scope.

(** a neighbor with its color and color error *)
Record cnb := mkCN { cn : nb; cn_col : R; cn_cerr : R }.
(** the scale value: a number, or infinite (division by a zero sum of memberships) *)
Inductive sval := SVal (x : R) | SInf.
Record cluster := mkCl { k_lambda : R; k_rlambda : R; k_lambda_e : R; k_scale : sval; k_nbs : list cnb }.
Definition set_scale (c : cluster) (s : sval) : cluster := mkCl (k_lambda c) (k_rlambda c) (k_lambda_e c) s (k_nbs c).

(** options of one call; [o_fit] turns the galaxies used in the color fit into the filters (693-722) *)
Record fopt := mkFO { o_minmag : R; o_maxmag : R; o_rcut : R; o_lo : R; o_hi : R; o_mingal : nat; o_sigint : R;
                      o_cent : option R; o_err : bool; o_fit : list cnb -> filt }.

(** np.argmin, first smallest *)
Fixpoint argmin_from (l : list R) (i : nat) (best : nat) (v : R) : nat :=
  match l with [] => best | x :: t => if Rltb x v then argmin_from t (S i) i x else argmin_from t (S i) best v end.
Definition argminR (l : list R) : res nat := match l with [] => Err ValueError | x :: t => Ok (argmin_from t 1 0 x) end.

(** cluster.py:670-674 *)
Definition guse (o : fopt) (x : cnb) : bool :=
  Rltb (o_minmag o) (n_mag (cn x)) && Rltb (n_mag (cn x)) (o_maxmag o) && Rltb (n_r (cn x)) (o_rcut o)
  && Rltb (o_lo o) (cn_col x) && Rltb (cn_col x) (o_hi o).
(** cluster.py:693-694 *)
Definition in2sig (o : fopt) (cent : R) (x : cnb) : bool :=
  Rltb (Rabs (cn_col x - cent)) (2 * sqrt (cn_cerr x ^ 2 + o_sigint o ^ 2)).

(** cluster.py:757-761: as pcol_of of Richness with the background scaled to the area within rlam; not reset when it
    is not finite (that case, a zero denominator, is not modelled) *)
Definition pcol_fit (f : filt) (lam rlam : R) (x : nb) : R :=
  if Rltb rlam (n_r x) then 0
  else if Rltb (f_maxmag f) (n_mag x) then 0
  else if Rltb (f_limmag f) (n_mag x) then 0
  else match f_b f x with
       | Binf => 0
       | Bval b => (f_col f x * lam) / (f_col f x * lam + b * (rlam * rlam) / (2 * n_r x))
       end.
Definition set_row (x : cnb) (thi thr p pcol pmem : R) : cnb := mkCN (set5 (cn x) thi thr p pcol pmem) (cn_col x) (cn_cerr x).

(** cluster.py:731-778, after the solver *)
Definition fit_end (o : fopt) (e : senv) (f : filt) (c : cluster) (s : sres) : res (R * cluster) :=
  let reset := map (fun x => set_row x 0 0 0 0 0) (k_nbs c) in
  if Rltb (o_lam s) 0 then
    Ok (o_lam s, mkCl (o_lam s) (o_rlam s) (if o_err o then -1 else 0) (SVal (-1)) reset)
  else if o_err o then Err NameError                            (* 752: cval is not defined *)
  else
    let sum := lsum (map a_wt (o_arr s)) in
    let sc := if Req_EM_T sum 0 then SInf else SVal (Rabs (o_lam s / sum)) in
    let rows := map (fun xa => let '(x, a) := xa in
                  set_row x (th_i e f (cn x)) (a_th a) (a_p a) (pcol_fit f (o_lam s) (o_rlam s) (cn x)) (a_wt a))
                (combine (k_nbs c) (o_arr s)) in
    Ok (o_lam s, mkCl (o_lam s) (o_rlam s) 0 sc rows).

(** cluster.py:660-778; None: the solver has not finished within the fuel *)
Definition calc_richness_fit (fuel : nat) (tol : R) (e : senv) (o : fopt) (c : cluster) : option (res (R * cluster)) :=
  let nbs := k_nbs c in
  let use := filter (guse o) nbs in
  if Nat.ltb (List.length use) (o_mingal o) then Some (Ok (-10, set_scale c (SVal (-1))))         (* 676-678 *)
  else
    match (match o_cent o with
           | Some x => Ok (Some x)
           | None => do i <- argminR (map (fun x => n_r (cn x)) nbs);                             (* 683-689 *)
                     match nth_error nbs i with
                     | Some x => Ok (if guse o x then Some (cn_col x) else None)
                     | None => Err IndexError
                     end
           end) with
    | Err x => Some (Err x)
    | Ok None => Some (Ok (-10, c))                                                                (* 687 *)
    | Ok (Some cent) =>
      let good := filter (in2sig o cent) use in
      if Nat.ltb (List.length good) (o_mingal o) then Some (Ok (-10, set_scale c (SVal (-1))))     (* 695-697 *)
      else
        let f := o_fit o good in
        option_map (fit_end o e f c) (solve fuel tol e (map (fun x => gal_of e f (cn x)) nbs))
    end.

(** lam / scaleval < minlambda (numpy; x / inf = 0, division by a zero scale value is not modelled) *)
Definition too_poor (lam : R) (s : sval) (minlambda : R) : bool :=
  match s with SVal x => Rltb (lam / x) minlambda | SInf => Rltb 0 minlambda end.
(** cluster_runner.py:304-311, the three values this run keeps *)
Definition reset_bad (c : cluster) : cluster := mkCl (-1) (k_rlambda c) (-1) (SVal (-1)) (k_nbs c).
(** run_colormem.py:136-152: returns (bad, p_bcg, cluster) *)
Definition process (fuel : nat) (tol : R) (e : senv) (o : fopt) (minlambda pcut : R) (c : cluster) :
  option (res (bool * R * cluster)) :=
  option_map (fun r =>
    do lc <- r;
    let '(lam, c') := lc in
    do i <- argminR (map (fun x => n_r (cn x)) (k_nbs c'));
    match nth_error (k_nbs c') i with
    | None => Err IndexError
    | Some x =>
      let pb := n_pmem (cn x) in
      if too_poor lam (k_scale c') minlambda then Ok (true, pb, reset_bad c')
      else if Rltb pb pcut then Ok (true, pb, reset_bad c')
      else Ok (false, pb, c')
    end) (calc_richness_fit fuel tol e o c).
