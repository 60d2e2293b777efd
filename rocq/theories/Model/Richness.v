(** Cluster.calc_richness: cluster.py:458-563, and calc_theta_i: utilities.py:437-466.
    The physical filters (colour, radius, luminosity) and the background are parameters. *)
From Coq Require Import Reals Lra.
From Verif.Base Require Import Py.
From Verif.Model Require Import BkgGen Solver.
Local Open Scope R_scope.

(** utilities.py:457-466.  [erf] is the library function; zero errors are not modelled (division by zero). *)
Definition eff_lim (maxmag limmag : R) : R := Rmin (Rmax maxmag 0) limmag.
Definition theta_i (erf : R -> R) (mag err maxmag limmag : R) : R :=
  let dmag := eff_lim maxmag limmag - mag in
  let t := if Rltb dmag (5 * err) then 1/2 + 1/2 * erf (dmag / (sqrt 2 * err)) else 1 in
  if Rltb limmag mag then 0 else t.

(** one neighbour: inputs, then the five fields calc_richness writes *)
Record nb := mkNB { n_r : R; n_mag : R; n_err : R; n_pfree : R;
                    n_thi : R; n_thr : R; n_p : R; n_pcol : R; n_pmem : R }.
Definition set5 (x : nb) (thi thr p pcol pmem : R) : nb :=
  mkNB (n_r x) (n_mag x) (n_err x) (n_pfree x) thi thr p pcol pmem.

(** What calc_richness knows about a neighbour besides its row: rho * phi, the filter ucounts and the background
    bcounts (lines 482-488), each a function of the neighbour. *)
Record filt := mkF { f_col : nb -> R; f_u : nb -> R; f_b : nb -> bval; f_maxmag : R; f_limmag : R }.

(** lines 490-504: the solver input for one neighbour *)
Definition gal_of (e : senv) (f : filt) (x : nb) : gal :=
  mkG (f_u f x) (f_b f x) (n_r x)
      (theta_i (e_erf e) (n_mag x) (n_err x) (f_maxmag f) (f_limmag f) * n_pfree x).

(** lines 536-543: pcol = u lam / (u lam + b), zeroed outside the radius, beyond either magnitude limit, or when
    it is not finite *)
Definition pcol_of (f : filt) (lam rlam : R) (x : nb) : R :=
  if Rltb rlam (n_r x) then 0
  else if Rltb (f_maxmag f) (n_mag x) then 0
  else if Rltb (f_limmag f) (n_mag x) then 0
  else match f_b f x with
       | Binf => 0
       | Bval b => if Req_EM_T (f_col f x * lam + b) 0 then 0 else (f_col f x * lam) / (f_col f x * lam + b)
       end.

(** numpy: a[idx] = vals *)
Fixpoint set_nth {A} (l : list A) (i : nat) (v : A) : list A :=
  match l, i with [], _ => [] | _ :: t, O => v :: t | x :: t, S j => x :: set_nth t j v end.
Definition scatter {A} (l : list A) (iv : list (nat * A)) : list A :=
  fold_left (fun acc e => set_nth acc (fst e) (snd e)) iv l.

Definition lmax (l : list R) : res R :=
  match l with [] => Err ValueError | x :: t => Ok (fold_left Rmax t x) end.
Definition lsum (l : list R) : R := fold_left Rplus l 0.

Record cres := mkCRes { c_lambda : R; c_rlambda : R; c_lambda_e : R; c_scaleval : R; c_nbs : list nb }.

(** line 490 *)
Definition th_i (e : senv) (f : filt) (x : nb) : R :=
  theta_i (e_erf e) (n_mag x) (n_err x) (f_maxmag f) (f_limmag f).

(** lines 511-563.  [cerr] is the mask part of the error (calc_lambdacerr), a parameter. *)
Definition finish (e : senv) (f : filt) (cerr : R) (nbs : list nb) (idx : list nat) (s : sres) : res cres :=
  let reset := map (fun x => set5 x 0 0 0 0 0) nbs in
  let pm := map a_wt (o_arr s) in
  let fail := Ok (mkCRes (-1) (o_rlam s) (-1) (-1) reset) in
  if Rltb (o_lam s) 0 then fail
  else do m <- lmax pm;
       if Req_EM_T m 0 then fail
       else
         let sum := lsum pm in
         let bar := lsum (map (fun x => x * x) pm) / sum in
         let sc := Rabs (o_lam s / sum) in
         let err := sqrt ((1 - bar) * (o_lam s / sc) * (sc * sc) + cerr * cerr) in
         let rows := map (fun xa => let '(x, a) := xa in
                       set5 x (th_i e f x) (a_th a) (a_p a) (pcol_of f (o_lam s) (o_rlam s) x) (a_wt a))
                     (combine (np_sel nbs idx) (o_arr s)) in
         Ok (mkCRes (o_lam s) (o_rlam s) err sc (scatter reset (combine idx rows))).

(** lines 473-563; None if the solver has not finished within the fuel *)
Definition calc_richness (fuel : nat) (tol : R) (e : senv) (f : filt) (cerr : R) (nbs : list nb) (idx : list nat) :
  option (res cres) :=
  option_map (finish e f cerr nbs idx) (solve fuel tol e (map (gal_of e f) (np_sel nbs idx))).
