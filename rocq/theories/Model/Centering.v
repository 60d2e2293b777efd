(** Cluster centering: centering.py:63-114 (BCG), 116-351 (WcenZred), 401-452 (RandomSatellite).
    Numbers are rationals.  The filters that give a candidate its central, satellite and background densities
    (lines 161-268) are parameters. *)
From Coq Require Import QArith Qround Qabs.
From Verif.Base Require Import Py Sort.
Local Open Scope nat_scope.

(** ** CenteringBCG *)
Record bn := mkBN { b_r : Q; b_pmem : Q; b_zred : Q; b_zrede : Q; b_zspec : Q; b_zspece : Q; b_mag : Q }.

(** numpy.argmin: first position of the extreme value; ValueError on an empty array *)
Fixpoint argbest (better : Q -> Q -> bool) (l : list Q) : res nat :=
  match l with
  | [] => Err ValueError
  | x :: t => match argbest better t with
              | Err _ => Ok 0
              | Ok k => match nth_error t k with
                        | Some y => if better y x then Ok (S k) else Ok 0
                        | None => Ok 0
                        end
              end
  end.
Definition argmin (l : list Q) : res nat := argbest Qlt_bool l.

(** centering.py:89-94.  The arrays are the neighbour columns themselves, not copies, so the neighbours change. *)
Definition bcg_zspec (use_zspec : bool) (l : list bn) : list bn :=
  if use_zspec
  then map (fun n => if Qlt_bool 0 (b_zspec n)
                     then mkBN (b_r n) (b_pmem n) (b_zspec n) (b_zspece n) (b_zspec n) (b_zspece n) (b_mag n)
                     else n) l
  else l.
(** lines 96-98; pmem_cut = 0.8 *)
Definition bcg_use (rlam z : Q) (n : bn) : bool :=
  Qlt_bool (b_r n) rlam && (Qlt_bool (8#10) (b_pmem n) || Qlt_bool (Qabs (b_zred n - z)) (2 * b_zrede n)).
(** centering.py:68-114; None is the returned False *)
Definition bcg_find (use_zspec : bool) (rlam z : Q) (l : list bn) : res (option nat * list bn) :=
  let l' := bcg_zspec use_zspec l in
  let use := np_where (bcg_use rlam z) l' in
  match use with
  | [] => Ok (None, l')
  | _ => do sel <- np_take (map b_mag l') use;
         do m <- argmin sel;
         match nth_error use m with Some i => Ok (Some i, l') | None => Err IndexError end
  end.

(** ** CenteringRandomSatellite.  [u] is the uniform draw; int() truncates non-negative numbers. *)
Definition int_trunc (x : Q) : Z := if Qlt_bool x 0 then (- Qfloor (- x))%Z else Qfloor x.
Definition sat_find (asort : list Q -> list nat) (pmem : list Q) (u : Q) : res nat :=
  let st := desc asort pmem in
  do pdf <- np_take pmem st;
  let s := Qsum pdf in
  if Qeq_bool s 0 then Err IndexError  (* the cdf is NaN; no element compares >= and [0][0] fails *)
  else
    let n := inject_Z (Z.of_nat (List.length st)) in
    let cdfi := map (fun c => int_trunc (c * n)) (cumsum (map (fun p => (p / s)%Q) pdf)) in
    let rand := int_trunc (u * n)%Q in
    match np_where (fun c => Z.leb rand c) cdfi with
    | [] => Err IndexError
    | ind :: _ => match nth_error st ind with Some i => Ok i | None => Err IndexError end
    end.

(** ** CenteringWcenZred *)
(** one neighbour that may be a candidate, with the outcome of the filters *)
Record wn := mkWN { w_r : Q; w_cut : bool;    (* r; the candidate cuts of lines 155-159 other than r < r_lambda *)
                    w_pfree : Q; w_ucen : Q; w_usat : Q; w_bkg : Q }.
Record wout := mkWO { wo_ngood : nat; wo_index : list nat; wo_pcen : list Q; wo_qcen : list Q;
                      wo_pfg : list Q; wo_psat : list Q; wo_qmiss : Q; wo_maxind : nat }.

(** lines 237-238, 252-253: densities below 1e-10 count as 0 *)
Definition floor10 (x : Q) : Q := if Qlt_bool x (1 # 10000000000) then 0%Q else x.
(** lines 270-275: pfree * ucen / (ucen + (Lambda/scaleval - 1) usat + b), clipped above.  A NaN gives 0;
    an infinity is clipped to 0.99999 before the test for finite values.  A NaN density is represented by ucen = 0. *)
Definition pcen_basic (lam scale : Q) (n : wn) : Q :=
  let d := (floor10 (w_ucen n) + (lam / scale - 1) * floor10 (w_usat n) + w_bkg n)%Q in
  if Qeq_bool d 0
  then (if Qeq_bool (w_pfree n * floor10 (w_ucen n)) 0 then 0%Q else 99999 # 100000)
  else Qmin2 (w_pfree n * (floor10 (w_ucen n) / d)) (99999 # 100000).

Definition Qprod (l : list Q) : Q := fold_right Qmult 1%Q l.
(** lines 307-311: P_i times the product over the other selected candidates of (1 - P_j).  [ps] is Pcen_basic[good]. *)
Definition unnorm (ps : list Q) (i : nat) : Q :=
  (nth i ps 0 * Qprod (map (fun j => if Nat.eqb j i then 1 - 0 else 1 - nth j ps 0)%Q (seq 0 (List.length ps))))%Q.
(** lines 329-339 *)
Definition fg_basic (lam : Q) (n : wn) : Q :=
  let d := ((lam - 1) * floor10 (w_usat n) + w_bkg n)%Q in if Qeq_bool d 0 then 0%Q else (w_bkg n / d)%Q.
Definition sat_basic (lam : Q) (n : wn) : Q :=
  let d := ((lam - 1) * floor10 (w_usat n) + w_bkg n)%Q in
  if Qeq_bool d 0 then 0%Q else ((lam - 1) * floor10 (w_usat n) / d)%Q.

(** lines 125-351.  An empty candidate list raises inside the matcher or at argmin of an empty array; the result is
    never False.  Positions in [good] refer to the candidate list [use]. *)
Definition wcen_find (asort : list Q -> list nat) (maxcen : nat) (lam scale rlam : Q) (l : list wn) : res wout :=
  let use := np_where (fun n => Qlt_bool (w_r n) rlam && w_cut n) l in
  do cand <- np_take l use;
  let pb := map (pcen_basic lam scale) cand in
  let ok := np_where (fun p => Qlt_bool 0 p) pb in
  do g <- (match ok with
           | [] => do m <- argmin (map w_r cand); Ok ([m], [0%Q], [0%Q], 1%Q, 0)
           | _ =>
             do pok <- np_take pb ok;
             do ord <- np_take ok (desc asort pok);
             let good := firstn maxcen ord in
             do ps <- np_take pb good;
             let un := map (unnorm ps) (seq 0 (List.length ps)) in
             let qm := Qprod (map (fun p => 1 - p)%Q ps) in
             (* line 325 overwrites the local Qmiss; self.q_miss keeps its initial 0 *)
             Ok (good, map (fun u => u / Qsum un)%Q un, map (fun u => u / (qm + Qsum un))%Q un, 0%Q, List.length good)
           end);
  let '(good, pcen, qcen, qmiss, ngood) := g in
  do cg <- np_take cand good;
  do ix <- np_take use good;
  match ix with
  | [] => Err IndexError
  | i0 :: _ =>
    Ok (mkWO ngood ix pcen qcen
             (map (fun e => (1 - fst e) * fg_basic lam (snd e))%Q (combine pcen cg))
             (map (fun e => (1 - fst e) * sat_basic lam (snd e))%Q (combine pcen cg)) qmiss i0)
  end.
