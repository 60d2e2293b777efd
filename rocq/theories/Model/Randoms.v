(** Random points: randoms.py:58-149 (generate_randoms), redmagic/redmagic_randoms.py:49-137, randoms.py:265-360 (weights). *)
From Coq Require Import QArith.
From Verif.Base Require Import Py.
From Verif.Model Require Import Chunks Richness.
Local Open Scope nat_scope.

(** A position; the mask gives the maximum redshift and the good fraction there (volumelimit.py:239-272). *)
Definition pos := Z.
Definition maskfn := pos -> Q * Q.
(** A drawn cluster: redshift, richness, id (randoms.py:113-116). *)
Record drawn := mkDrawn { d_z : Q; d_lambda : Q; d_id : Z }.
(** What one pass of the loop draws: positions (97), uniform numbers (102) and clusters (113). *)
Record round := mkRound { rd_pos : list pos; rd_u : list Q; rd_draw : list drawn }.

(** Lines 120-127: walk the positions with the two counters; the list of draws starts at the current [zctr]. *)
Fixpoint place (ps : list pos) (zmax : list Q) (zz : list drawn) : res (list (pos * option drawn)) :=
  match ps with
  | [] => Ok []
  | p :: ps' =>
    match zmax, zz with
    | m :: zmax', r :: zz' =>
      if Qlt_bool (d_z r) m then do t <- place ps' zmax' zz'; Ok ((p, Some r) :: t)
      else do t <- place ps' zmax' zz; Ok ((p, None) :: t)
    | _, _ => Err IndexError
    end
  end.
(** Line 130: redshift above 0; untouched rows have -1. *)
Fixpoint placed (l : list (pos * option drawn)) : list (pos * drawn) :=
  match l with
  | [] => []
  | (p, Some r) :: t => if Qlt_bool 0 (d_z r) then (p, r) :: placed t else placed t
  | (_, None) :: t => placed t
  end.
(** Lines 97-130.  [reindex] is redmagic_randoms.py:108, [zmax = zmax[gd]]; randoms.py has no such line.
    Storage of the redshift in single precision is not modelled. *)
Definition one_round (reindex : bool) (mask : maskfn) (r : round) : res (list (pos * drawn)) :=
  let vals := map mask (rd_pos r) in
  let gd := np_where (fun uf : Q * (Q * Q) => Qlt_bool (fst uf) (snd (snd uf))) (combine (rd_u r) vals) in
  do ps <- np_take (rd_pos r) gd;
  do zmax <- (if reindex then np_take (map fst vals) gd else Ok (map fst vals));
  do l <- place ps zmax (rd_draw r);
  Ok (placed l).
(** A row of the output: id, position, drawn cluster (lines 108-111, 124-126, 141). *)
Definition row : Type := nat * pos * drawn.
(** The loop, 95-147.  None: the given rounds were not enough. *)
Fixpoint rand_loop (reindex : bool) (mask : maskfn) (rounds : list round) (n_left ctr : nat) (acc : list row) : res (option (list row)) :=
  match n_left with
  | O => Ok (Some acc)
  | _ =>
    match rounds with
    | [] => Ok None
    | r :: rest =>
      do good <- one_round reindex mask r;
      let n_good := Nat.min (List.length good) n_left in
      let tab := map (fun e => (fst e, fst (snd e), snd (snd e))) (combine (seq (ctr + 1) n_good) (firstn n_good good)) in
      rand_loop reindex mask rest (n_left - n_good) (ctr + n_good) (acc ++ tab)
    end
  end.
Definition generate_randoms (mask : maskfn) (rounds : list round) (nrandoms : nat) := rand_loop false mask rounds nrandoms 0 [].
Definition redmagic_randoms (mask : maskfn) (rounds : list round) (nrandoms : nat) := rand_loop true mask rounds nrandoms 0 [].

(** ** Weights *)
(** A random point after the mask run: cluster id, redshift, richness, scale value, masked fraction. *)
Record rpoint := mkRpoint { p_id : Z; p_z : Q; p_lambda : Q; p_scale : Q; p_maskfrac : Q }.
(** A cluster of the catalog: id, richness, scale value. *)
Record rclus := mkRclus { k_id : Z; k_lambda : Q; k_scale : Q }.
Record wconf := mkWconf { w_scaleval : bool; w_minlambda : Q; w_lo : Q; w_hi : Q; w_maxmask : Q; w_z0 : Q; w_z1 : Q }.

(** Lines 307-314 *)
Definition clus_cut (c : wconf) (k : rclus) : bool :=
  (Qlt_bool (w_minlambda c) (if w_scaleval c then k_lambda k / k_scale k else k_lambda k) &&
   Qlt_bool (w_lo c) (k_lambda k) && Qle_bool (k_lambda k) (w_hi c))%bool.
(** Lines 340-349 *)
Definition point_cut (c : wconf) (p : rpoint) : bool :=
  (Qlt_bool (w_minlambda c) (if w_scaleval c then p_lambda p / p_scale p else p_lambda p) &&
   Qlt_bool (p_maskfrac p) (w_maxmask c) && Qlt_bool (w_lo c) (p_lambda p) && Qle_bool (p_lambda p) (w_hi c))%bool.
(** Lines 290-320: the rows used.  The positions are replaced by the rows themselves. *)
Definition all_use (c : wconf) (cat : list rclus) (rand : list rpoint) : res (list rpoint) :=
  let zuse := filter (fun p => (Qlt_bool (w_z0 c) (p_z p) && Qlt_bool (p_z p) (w_z1 c))%bool) rand in
  if Nat.eqb (List.length zuse) 0 then Err RuntimeError else
  let uid := uniqueZ (map p_id zuse) in
  do m <- eu_match (map k_id cat) uid;
  if Nat.ltb (List.length (snd m)) (List.length uid) then Err RuntimeError else
  do ab <- eu_match (map k_id cat) (map p_id zuse);
  do ks <- np_take cat (fst ab);
  let luse := np_where (clus_cut c) ks in
  if Nat.eqb (List.length luse) 0 then Err RuntimeError else
  do bl <- np_take (snd ab) luse;
  np_take zuse bl.
(** Lines 334-352: the histogram with reverse indices lists, for every id present, the positions of its rows. *)
Fixpoint weigh_groups (c : wconf) (rows : list rpoint) (ids : list Z) (w : list Q) : list Q :=
  match ids with
  | [] => w
  | i :: t =>
    let i1a := np_where (fun p => Z.eqb (p_id p) i) rows in
    let gd := filter (fun j => match nth_error rows j with Some p => point_cut c p | None => false end) i1a in
    let v := (inject_Z (Z.of_nat (List.length i1a)) / inject_Z (Z.of_nat (List.length gd)))%Q in
    weigh_groups c rows t (scatter w (map (fun j => (j, v)) gd))
  end.
(** Lines 290-360: the rows written with their weights. *)
Definition weight_randoms (c : wconf) (cat : list rclus) (rand : list rpoint) : res (list (rpoint * Q)) :=
  do rows <- all_use c cat rand;
  let w := weigh_groups c rows (uniqueZ (map p_id rows)) (repeat 0%Q (List.length rows)) in
  Ok (filter (fun rw => Qlt_bool 0 (snd rw)) (combine rows w)).
(** Lines 378-390: the counts below a redshift whose ratio gives the area correction. *)
Definition area_cut (c : wconf) (p : rpoint) : bool :=
  (Qlt_bool (w_minlambda c) (if w_scaleval c then p_lambda p / p_scale p else p_lambda p) &&
   Qlt_bool (p_maskfrac p) (w_maxmask c) && Qlt_bool (w_lo c) (p_lambda p) && Qlt_bool (p_lambda p) (w_hi c))%bool.
Definition area_counts (c : wconf) (rows : list rpoint) (z : Q) : nat * nat :=
  let below := filter (fun p => Qlt_bool (p_z p) z) rows in
  (List.length (filter (area_cut c) below), List.length below).
