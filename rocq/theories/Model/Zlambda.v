(** The cluster redshift: zlambda.py:45-552.  Numbers are rationals; exp, the sorting function, the likelihood
    and scipy's minimiser and integrator are parameters. *)
From Coq Require Import QArith Qround Qabs.
From Verif.Base Require Import Py Sort.
From Verif.Model Require Import Bkg Centering.
Local Open Scope nat_scope.

(** ** neighbour selection, _zlambda_select_neighbors, zlambda.py:202-264 *)
Record zn := mkZN { z_r : Q; z_mag : Q; z_wt : Q }.
Definition zl_use (maxrad maxmag : Q) (n : zn) : bool :=
  Qlt_bool (z_r n) maxrad && Qlt_bool (z_mag n) maxmag && Qlt_bool 0 (z_wt n).
(** lines 229-246 *)
Definition zl_ncount (topfrac sumwt : Q) (nuse : nat) : Q :=
  let c := (topfrac * sumwt)%Q in
  let c := if Qlt_bool c 3 then 3%Q else c in
  if Qlt_bool (inject_Z (Z.of_nat nuse)) c then inject_Z (Z.of_nat nuse) else c.
(** line 251 *)
Definition zl_pw (ex : Q -> Q) (pthresh wt : Q) : Q := (1 / (ex ((pthresh - wt) / (4#100)) + 1))%Q.
(** None is zlambda_fail; Some lists the chosen positions (_zlambda_in_rad) with their weights *)
Definition zl_select (asort : list Q -> list nat) (ex : Q -> Q) (topfrac maxrad maxmag : Q) (l : list zn)
  : res (option (list (nat * Q))) :=
  let use := np_where (zl_use maxrad maxmag) l in
  if Nat.ltb (List.length use) 3 then Ok None
  else
    let nc := zl_ncount topfrac (Qsum (map z_wt l)) (List.length use) in
    do wu <- np_take (map z_wt l) use;
    let st := desc asort wu in
    do si <- py_index st (np_round nc - 1);
    do pthresh <- py_index wu (Z.of_nat si);
    let pw := map (zl_pw ex pthresh) wu in
    let gd := np_where (fun p => Qlt_bool (1 # 1000) p) pw in
    do ix <- np_take use gd;
    do pg <- np_take pw gd;
    Ok (Some (combine ix pg)).

(** ** the iteration, calc_zlambda, zlambda.py:45-200 *)
(** what one pass of the inner loop finds: nobody inside the radius (117), richness below the limit (127),
    fewer than three usable neighbours (141), or a parabola fit with a minimum (its vertex) or without one (287-290) *)
Inductive pass := NoNeighbor | LowRichness | FewNeighbors | Fit (vertex : option Q).
Definition pass_fails (p : pass) : bool := match p with Fit _ => false | _ => true end.
(** lines 115-148 for the neighbours [l] (their radii and weights at this redshift) and richness [lam]; [fit] is the
    parabola fit to the likelihoods of the chosen neighbours.  zl_select does not fail (see Proofs). *)
Definition one_pass (asort : list Q -> list nat) (ex : Q -> Q) (topfrac maxrad minlam : Q)
  (l : list zn) (lam : Q) (fit : list (nat * Q) -> option Q) (maxmag : Q) : pass :=
  if negb (existsb (fun n => Qlt_bool (z_r n) maxrad) l) then NoNeighbor
  else if Qlt_bool lam minlam then LowRichness
  else match zl_select asort ex topfrac maxrad maxmag l with
       | Ok (Some sel) => Fit (fit sel)
       | _ => FewNeighbors
       end.
(** _zlambda_calcz, zlambda.py:266-295, nsteps = 10 *)
Definition calcz (step z : Q) (v : option Q) : Q :=
  clipQ (step * 0 + z - step * (9#2) - step) (step * 9 + z - step * (9#2) + step) (match v with Some x => x | None => -1 end)%Q.

(** [obs i z maxmag] is what pass i finds at redshift z with the magnitude limit maxmag.
    Lines 107-163; the result is the redshift, the pass counter and what each pass found. *)
Fixpoint zloop (obs : nat -> Q -> Q -> pass) (mlim : Q -> Q) (given : bool) (step tol : Q) (left i : nat) (z maxmag : Q)
  : Q * nat * list pass :=
  match left with
  | 0 => (z, i, [])
  | S left' =>
    if Qlt_bool z 0 then (z, i, [])
    else
      let mm := if given then mlim z else maxmag in       (* lines 134-136 *)
      match obs i z mm with
      | Fit v =>
        let znew := calcz step z v in
        if negb (Nat.eqb i 0) && (Qlt_bool (Qabs (znew - z)) tol || Qlt_bool znew 0) then (z, i, [Fit v])
        else if Qlt_bool znew 0 then (znew, i, [Fit v])
        else let '(z', i', tr) := zloop obs mlim given step tol left' (S i) znew mm in (z', i', Fit v :: tr)
      | p => ((-1)%Q, i, [p])
      end
  end.

(** outcome of _zlambda_calc_pz_and_check, zlambda.py:363-439: a negative p(z), or the peak of p(z) and the error *)
Inductive pzres := PzBad | PzPeak (peak e : Q).
Record zenv := mkZE { obs : nat -> nat -> Q -> Q -> pass;    (* p(z) iteration, pass, redshift, magnitude limit *)
                      gauss : Q -> Q;                        (* _zlambda_calc_gaussian_err, zlambda.py:335-361 *)
                      pzchk : nat -> Q -> pzres;
                      mlim : Q -> Q }.                       (* mstar(z) - 2.5 log10(lval_reference) *)
(** lines 101-190, the p(z) iterations *)
Fixpoint zouter (E : zenv) (given : bool) (step tol : Q) (maxiter : nat) (calcpz calc_err : bool) (left k : nat) (z e maxmag : Q)
  : Q * Q * list pass :=
  match left with
  | 0 => (z, e, [])
  | S left' =>
    let '(z1, _, tr) := zloop (obs E k) (mlim E) given step tol maxiter 0 z maxmag in
    if Qlt_bool 0 z1 && calc_err then
      if negb calcpz then
        let ge := gauss E z1 in
        if Qlt_bool ge 0 then ((-1)%Q, ge, tr) else (z1, ge, tr)
      else match pzchk E k z1 with
           | PzBad => let '(z', e', tr') := zouter E given step tol maxiter calcpz calc_err left' (S k) (-1)%Q (-1)%Q maxmag in (z', e', tr ++ tr')
           | PzPeak pk pe =>
             if Qlt_bool (Qabs (pk - z1)) tol then (z1, pe, tr)
             else let '(z', e', tr') := zouter E given step tol maxiter calcpz calc_err left' (S k) pk pe maxmag in (z', e', tr ++ tr')
           end
    else (z1, (-1)%Q, tr)
  end.
(** lines 83-200: redshift, error, and the history of passes.  [maxmag_in] has one element if given. *)
Definition calc_zlambda (E : zenv) (step tol : Q) (maxiter : nat) (zin : Q) (maxmag_in : option Q) (calcpz calc_err : bool)
  : Q * Q * list pass :=
  zouter E (match maxmag_in with Some _ => true | None => false end) step tol maxiter calcpz calc_err 2 0 zin 0
         (match maxmag_in with Some m => m | None => mlim E zin end).

(** ** the p(z) grid, _zlambda_calc_pz, zlambda.py:441-552 *)
Definition qn (n : nat) : Q := inject_Z (Z.of_nat n).
Definition fast_grid (n : nat) (z zhi : Q) : list Q :=
  let dz := clipQ (5#1000) (15#100) (zhi - z)%Q in
  map (fun i => (2 * dz / (qn n - 1) * qn i + z - dz)%Q) (seq 0 n).
(** lines 495-510: walk down by 0.05 while the ratio stays above 0.01; then clip to z[0].  [ratio lowz] is pz/pz0. *)
Fixpoint walk_low (fuel : nat) (ratio : Q -> Q) (zmin lowz : Q) : option Q :=
  match fuel with
  | 0 => None
  | S f => if Qle_bool zmin lowz
           then if Qlt_bool (1#100) (ratio lowz) then walk_low f ratio zmin (lowz - (5#100)) else Some (Qmax2 lowz zmin)
           else Some (Qmax2 lowz zmin)
  end.
(** lines 512-525 *)
Fixpoint walk_high (fuel : nat) (ratio : Q -> Q) (zmax highz : Q) : option Q :=
  match fuel with
  | 0 => None
  | S f => if Qle_bool highz zmax
           then if Qlt_bool (1#100) (ratio highz) then walk_high f ratio zmax (highz + (5#100)) else Some (Qmin2 highz zmax)
           else Some (Qmin2 highz zmax)
  end.
(** lines 527-533 *)
Definition slow_grid (n : nat) (z lowz highz : Q) : res (list Q) :=
  let bins := map (fun i => ((highz - lowz) / (qn n - 1) * qn i + lowz)%Q) (seq 0 n) in
  do m <- argmin (map (fun b => Qabs (b - z)) bins);
  do bm <- py_index bins (Z.of_nat m);
  Ok (map (fun b => (b - (bm - z))%Q) bins).
(** lines 537-546: [lk] is the log likelihood at a redshift, [vf] the volume factor *)
Definition Qlmax (l : list Q) : Q := match l with [] => 0%Q | x :: t => fold_left Qmax2 t x end.
Definition pz_values (ex lk vf : Q -> Q) (simps : list Q -> list Q -> Q) (bins : list Q) : list Q :=
  let ln := map lk bins in
  let raw := map (fun b => (ex (lk b - Qlmax ln) * vf b)%Q) bins in
  map (fun p => (p / simps raw bins)%Q) raw.
