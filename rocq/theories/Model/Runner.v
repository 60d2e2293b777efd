(** The cluster loop of a run: cluster_runner.py:288-301 (ids), 356-585 (loop), 590-608 (post-processing).
    What the run-specific [_process_cluster] computes for one cluster is a parameter: any function of the
    cluster and of the free probabilities it is handed. *)
From Verif.Base Require Import Py Fn.

(** one neighbour after processing *)
Record nbr_out := mkNO {
  no_p : Q;             (* neighbors.p *)
  no_pmem : Q;          (* neighbors.pmem *)
  no_mask : bool;       (* refmag < lim and r < r_mask, lines 508-511 *)
  no_memcut : bool;     (* the memradius / memlum cuts, lines 546-548 *)
  no_cand : bool }.     (* centering_cand == 1 *)
Record outcome := mkOC { oc_bad : bool; oc_lambda : Q; oc_nbrs : list nbr_out }.
Record cl := mkCL { cl_id : Z; cl_nb : list nat }.    (* id, neighbors.index *)
Record crec := mkCR { cr_id : Z; cr_lambda : Q }.     (* row of the catalog after the loop *)
Record mrec := mkMR { mr_id : Z; mr_gal : nat; mr_p : Q; mr_pfree : Q }.   (* row of the member table *)

Record flags := mkFL { fl_perc : bool; fl_record : bool; fl_memcuts : bool }.
(** do_percolation_masking, record_members, (use_memradius or use_memlum) *)

(** cluster_runner.py:405-408 *)
Definition handed (f : flags) (pgal : nat -> Q) (c : cl) : list Q :=
  map (fun g => if fl_perc f then (1 - pgal g)%Q else 1%Q) (cl_nb c).

(** cluster_runner.py:500-514.  pgal[index[u]] += p[u]: numpy reads the old values first. *)
Definition add_claims (pgal : nat -> Q) (l : list (nat * nbr_out)) : nat -> Q :=
  fold_left (fun acc e => if no_mask (snd e) && Qlt_bool 0 (no_p (snd e))
                          then upd acc (fst e) (pgal (fst e) + no_p (snd e))%Q else acc) l pgal.

(** cluster_runner.py:539-579: pfree_temp and memuse *)
Definition mem_ok (f : flags) (o : nbr_out) : bool :=
  if fl_memcuts f then Qlt_bool (1#100) (no_p o) && no_memcut o else Qlt_bool (1#100) (no_pmem o).
Definition mem_of (f : flags) (id : Z) (l : list ((nat * Q) * nbr_out)) : list mrec :=
  flat_map (fun e => let '((g, pf), o) := e in
              let pft := if mem_ok f o then pf else 0%Q in
              if Qlt_bool (1#100) pft || no_cand o then [mkMR id g (no_p o) pft] else []) l.

(** One iteration, cluster_runner.py:385-585.  Result: the catalog row, the new pgal and the members saved
    (None: the iteration ended early by [continue], lines 401-403 and 441-444). *)
Definition step (f : flags) (proc : cl -> list Q -> outcome) (pgal : nat -> Q) (c : cl) :
  crec * (nat -> Q) * option (list mrec) :=
  match cl_nb c with
  | [] => (mkCR (cl_id c) (-1), pgal, None)
  | _ =>
    let pf := handed f pgal c in
    let o := proc c pf in
    if oc_bad o then (mkCR (cl_id c) (-1), pgal, None)
    else
      (mkCR (cl_id c) (oc_lambda o),
       (if fl_perc f then add_claims pgal (combine (cl_nb c) (oc_nbrs o)) else pgal),
       (if fl_record f then Some (mem_of f (cl_id c) (combine (combine (cl_nb c) pf) (oc_nbrs o))) else None))
  end.

(** self.members: None until a first table is saved (582-585) *)
Definition add_members (ms new : option (list mrec)) : option (list mrec) :=
  match ms, new with
  | m, None => m
  | None, Some n => Some n
  | Some m, Some n => Some (m ++ n)
  end.

Record rstate := mkRS { rs_cat : list crec; rs_pgal : nat -> Q; rs_mem : option (list mrec) }.
Definition run_step (f : flags) (proc : cl -> list Q -> outcome) (s : rstate) (c : cl) : rstate :=
  let '(r, pg, m) := step f proc (rs_pgal s) c in
  mkRS (rs_cat s ++ [r]) pg (add_members (rs_mem s) m).
(** pgal starts at zero (361) *)
Definition run_loop (f : flags) (proc : cl -> list Q -> outcome) (cs : list cl) : rstate :=
  fold_left (run_step f proc) cs (mkRS [] (fun _ => 0%Q) None).

(** cluster_runner.py:590-608 [_postprocess] *)
Definition postprocess (min_lambda : Q) (s : rstate) : res (list crec * option (list mrec)) :=
  let cat := filter (fun r => Qle_bool min_lambda (cr_lambda r)) (rs_cat s) in
  match rs_mem s with
  | None => Ok (cat, None)
  | Some ms =>
      do m <- eu_match (map cr_id cat) (map mr_id ms);
      do ms' <- np_take ms (snd m);
      Ok (cat, Some ms')
  end.

(** cluster_runner.py:288-301 [_generate_mem_match_ids]; min() of an empty array is a ValueError *)
Definition generate_ids (ids : list Z) : res (list Z) :=
  match ids with
  | [] => Err ValueError
  | x :: t =>
      let mn := fold_left Z.min t x in
      let mx := fold_left Z.max t x in
      if (mn =? mx)%Z then Ok (map (fun k => Z.of_nat (S k)) (seq 0 (List.length ids)))
      else if Nat.eqb (List.length (nodup Z.eq_dec ids)) (List.length ids) then Ok ids
      else Err RuntimeError
  end.
