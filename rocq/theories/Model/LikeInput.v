(** Which clusters enter the likelihood run: run_likelihoods.py:100-148 (RunLikelihoods._more_setup).  The magnitude limit at the redshift
    of a row (129-130) and the mask at its position (142) are part of the row. *)
From Coq Require Import QArith.
From Verif.Base Require Import Py PyLemmas.
From Coq Require Import Lia List. Import ListNotations.
Local Open Scope Q_scope.

Record lrow := mkLR { r_z : Q; r_lambda : Q; r_refmag : Q; r_mlim : Q; r_in : bool }.
Record lcfg := mkLC { c_z0 : Q; c_z1 : Q; c_cushion : Q; c_keepz : bool; c_clean : bool }.
(** 114-118 *)
Definition range_of (c : lcfg) : Q * Q :=
  if c_keepz c then (if Qlt_bool (5 # 100) (c_z0 c - c_cushion c) then c_z0 c - c_cushion c else 5 # 100, c_z1 c + c_cushion c)
  else (c_z0 c, c_z1 c).
(** 120-148; None for a return of False *)
Definition like_setup (c : lcfg) (cat : list lrow) : res (option (list lrow)) :=
  let zr := range_of c in
  let use := filter (fun s => Qlt_bool (fst zr) (r_z s) && Qlt_bool (r_z s) (snd zr) && Qlt_bool 0 (r_lambda s)) cat in
  if Nat.eqb (List.length use) 0 then Ok None else
  let good := filter (fun s => Qlt_bool (r_refmag s) (r_mlim s)) use in
  if Nat.eqb (List.length good) 0 then Ok None else
  let clean := if c_clean c then filter r_in good else good in
  if c_clean c && Nat.eqb (List.length clean) 0 then Ok None else Ok (Some clean).
