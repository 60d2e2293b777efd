(** run_percolation.py:106-223, 225-439: the selection and order of the seeds (_more_setup) and the course of one cluster
    (_process_cluster); run_likelihoods.py:188-255, which writes the likelihood the order is made from. *)
From Coq Require Import QArith.
From Verif.Base Require Import Py PyLemmas Sort.
From Verif.Model Require Import Runner.
Local Open Scope nat_scope.

(** *** The likelihood column *)
(** A cluster after the likelihood run.  [None] is a value np.isfinite rejects. *)
Record like_row := mk_like { k_lam : option Q; k_like : option Q }.
Definition oadd (a b : option Q) : option Q := match a, b with Some x, Some y => Some (x + y)%Q | _, _ => None end.
(** run_likelihoods.py:195-237 for a cluster that is not bad: [old] is the value the lnlike column has before, [bcg]
    the central likelihood, [sigma] the configured lnw_cen_sigma.  The total is only stored in the second branch. *)
Definition like_good (sigma : Q) (bcg lam old : option Q) : like_row :=
  if Qle_bool sigma 0 then mk_like lam old else mk_like lam (oadd bcg lam).

(** *** The seeds *)
(** [s_mlim] is the magnitude limit at the redshift of the row (lines 159-160), [s_in] the mask at its position *)
Record seed := mk_seed { s_z : Q; s_like : option Q; s_lambda : Q; s_refmag : Q; s_mlim : Q; s_in : bool; s_id : Z }.
Record perc := mk_perc { p_z0 : Q; p_z1 : Q; p_cushion : Q; p_minlambda : Q; p_keepz : bool; p_keepid : bool; p_clean : bool }.
(** lines 140-144 *)
Definition zlow (c : perc) : Q :=
  if p_keepz c then (if Qlt_bool (1 # 20) (p_z0 c - p_cushion c) then p_z0 c - p_cushion c else 1 # 20)%Q else p_z0 c.
Definition zhigh (c : perc) : Q := (if p_keepz c then p_z1 c + p_cushion c else p_z1 c)%Q.
(** lines 147-150 *)
Definition use_row (c : perc) (s : seed) : bool :=
  Qlt_bool (zlow c) (s_z s) && Qlt_bool (s_z s) (zhigh c) &&
  (match s_like s with Some _ => true | None => false end) && Qlt_bool (p_minlambda c) (s_lambda s).
(** line 162 *)
Definition good_row (s : seed) : bool := Qlt_bool (s_refmag s) (s_mlim s).
Definition like_key (s : seed) : Q := match s_like s with Some v => v | None => 0%Q end.
Definition with_id (s : seed) (i : Z) : seed := mk_seed (s_z s) (s_like s) (s_lambda s) (s_refmag s) (s_mlim s) (s_in s) i.
(** lines 146-197; [asort] is numpy.argsort; [None] for a return of False *)
Definition setup (asort : list Q -> list nat) (c : perc) (cat : list seed) : res (option (list seed)) :=
  let use := filter (use_row c) cat in
  if (length use =? 0) then Ok None else
  let good := filter good_row use in
  if (length good =? 0) then Ok None else
  let st := if p_keepid c then asort (map (fun s => inject_Z (s_id s)) good) else desc asort (map like_key good) in
  do sorted <- np_take good st;
  let ids0 := if p_keepid c then sorted else map (fun s => with_id s 0) sorted in
  let clean := if p_clean c then filter s_in ids0 else ids0 in
  if (length clean =? 0) then Ok None else
  do ids <- generate_ids (map s_id clean);
  Ok (Some (map (fun p => with_id (fst p) (snd p)) (combine clean ids))).

(** *** One cluster *)
(** Everything the sequence of checks depends on.  Measurements get the redshift of the cluster at that moment. *)
Record outcome := mk_outcome {
  o_pfree : Q;                       (* pfree of the seed galaxy, line 243 *)
  o_near : nat;                      (* lc.size, line 253 *)
  o_ratio : Q; o_incut : nat;        (* Lambda/scaleval and incut.size, lines 259-266 *)
  o_zl : Q -> Q;                     (* the first z_lambda, line 274 *)
  o_center : bool;                   (* find_center() with ngood > 0, line 286 *)
  o_cfree : Q;                       (* pfree of the chosen center, line 362 *)
  o_lc : nat -> Q -> nat;            (* lc.size in iteration i, lines 347-353 *)
  o_rich : nat -> Q -> Q * Q;        (* Lambda and Lambda/scaleval in iteration i, line 359 *)
  o_zlam : Q -> Q;                   (* z_lambda of iteration 0, line 370 *)
  o_conn : nat                       (* u.size, line 394 *)
}.
Record pcfg := mk_pcfg { g_cut : Q; g_minlambda : Q; g_keepz : bool; g_maxiter : nat }.
Record cstate := mk_cstate { t_z : Q; t_lambda : Q; t_zl : Q }.
(** _reset_bad_values, cluster_runner.py:303-311 (the redshift is not touched) *)
Definition reset (s : cstate) : cstate := mk_cstate (t_z s) (-1) (-1).
(** the body of the loop from line 340 on: the new state and the flag [bad] *)
Definition body (o : outcome) (g : pcfg) (i : nat) (s : cstate) : cstate * bool :=
  if o_lc o i (t_z s) <? 2 then (s, true) else
  let '(lam, ratio) := o_rich o i (t_z s) in
  let s1 := mk_cstate (t_z s) lam (t_zl s) in
  if Qlt_bool ratio (g_minlambda g) || Qlt_bool (o_cfree o) (g_cut g) then (s1, true) else
  let s2 := if i =? 0 then
      let zl := o_zlam o (t_z s) in
      mk_cstate (if negb (g_keepz g) && Qlt_bool 0 zl then zl else t_z s) lam zl
    else s1 in
  (s2, Qlt_bool (t_zl s2) 0).
(** lines 323-387: [n] iterations are left; the flag of the previous iteration is looked at first *)
Fixpoint iterate (o : outcome) (g : pcfg) (n i : nat) (s : cstate) (bad : bool) : cstate * bool :=
  match n with
  | 0 => if bad then (reset s, true) else (s, false)
  | S n' =>
    let bad := Qlt_bool (t_z s) 0 || bad in
    if bad then (reset s, true) else
    let '(s', bad') := body o g i s in iterate o g n' (S i) s' bad'
  end.
(** lines 233-401; the flag returned at the end is False also when u.size == 0 *)
Definition process (o : outcome) (g : pcfg) (s : cstate) : cstate * bool :=
  if Qlt_bool (o_pfree o) (g_cut g) then (reset s, true) else
  if o_near o <? 2 then (reset s, true) else
  if Qlt_bool (o_ratio o) (g_minlambda g) || (o_incut o <? 3) then (reset s, true) else
  let zl := o_zl o (t_z s) in
  if negb (g_keepz g) && Qlt_bool zl 0 then (reset s, true) else
  let s1 := if g_keepz g then s else mk_cstate zl (t_lambda s) (t_zl s) in
  if negb (o_center o) then (reset s1, true) else
  let '(s2, bad) := iterate o g (g_maxiter g) 0 s1 false in
  if bad then (reset s2, true) else
  if o_conn o =? 0 then (reset s2, false) else (s2, false).
