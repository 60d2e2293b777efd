(** How far and how deep a runner looks around a cluster: cluster_runner.py:106-142 (radii of _setup), 260-261, 393-399,
    500-511 (the mask radius), cluster.py:233-250 (find_neighbors), run_percolation.py:202-218 and runcat.py:104-113 (limiting
    luminosity), configuration.py:959-973 (compute_border).  Real arithmetic; [x ** y] with x > 0 is [Rpower x y].  [None] is
    an option that is not set. *)
From Coq Require Import Reals Lra.
From Verif.Base Require Import Py.
From Verif.Model Require Import BkgGen.
Local Open Scope R_scope.

Record settings := mkSet {
  st_r0 : R; st_beta : R;                        (* of the run mode, 106-107 *)
  st_use_rmask : bool;                           (* use_rmask_settings *)
  st_prm0 : R; st_prmb : R; st_gamma : R; st_zpivot : R;   (* percolation_rmask_* *)
  st_lmask : option R;                           (* percolation_lmask *)
  st_lvalref : R;
  st_local : bool; st_annulus : R }.             (* bkg_local_compute or bkg_local_use; bkg_local_annuli[1] *)
Record radii := mkRad { ra_max : R; ra_m0 : R; ra_mb : R; ra_lmask : R }.

(** cluster_runner.py:106-142 *)
Definition setup (s : settings) : res radii :=
  let m0 := if st_use_rmask s then st_prm0 s else st_r0 s in
  let mb := if st_use_rmask s then st_prmb s else st_beta s in
  match st_lmask s with
  | None => Err TypeError                        (* None < 0.0 *)
  | Some lm =>
      let lmask := if Rltb lm 0 then st_lvalref s else lm in
      let '(maxrad, maxrad2) :=
        if Req_EM_T (st_beta s) 0 then (12/10 * st_r0 s, 12/10 * m0)
        else (st_r0 s * Rpower (300/100) (st_beta s), m0 * Rpower (300/100) mb) in
      let maxrad := if Rltb maxrad maxrad2 then maxrad2 else maxrad in
      let maxrad := if st_local s && Rltb maxrad (st_annulus s) then st_annulus s else maxrad in
      Ok (mkRad maxrad m0 mb lmask)
  end.

(** the radius of a cluster of richness lam (cluster.py, solver: r0 (lam/100)^beta) *)
Definition r_lambda (r0 beta lam : R) : R := r0 * Rpower (lam / 100) beta.
(** cluster_runner.py:502-506 *)
Definition r_mask (s : settings) (ra : radii) (lam z : R) : R :=
  let rm := ra_m0 ra * Rpower (lam / 100) (ra_mb ra) * Rpower ((1 + z) / (1 + st_zpivot s)) (st_gamma s) in
  let rl := r_lambda (st_r0 s) (st_beta s) lam in
  if Rltb rm rl then rl else rm.

(** cluster.py:237-250: is a galaxy at angular distance [dist] a neighbour, searching out to [radius] Mpc with [scale] Mpc per
    degree; and its r in Mpc when the scale is [scale'] *)
Definition is_neighbor (radius scale dist : R) : bool := Rltb dist (radius / scale).
Definition neighbor_r (scale' dist : R) : R := dist * scale'.

(** cluster_runner.py:261 *)
Definition limlum0 (lval : R) : R := Rmax (lval - 1/10) (1/100).
(** [x is not None and 0 < x < lval] then the smaller: run_percolation.py:210-214, runcat.py:104-108 *)
Definition with_memlum (memlum : option R) (lval l : R) : R :=
  match memlum with
  | Some m => if Rltb 0 m && Rltb m lval then (if Rltb m l then m else l) else l
  | None => l
  end.
Definition with_lmask (m l : R) : R := if Rltb 0 m then (if Rltb m l then m else l) else l.
(** run_percolation.py:206-218 *)
Definition limlum_percolation (lval : R) (memlum lmask : option R) : res R :=
  let l := limlum0 lval in
  let l := if Rltb (1/10) lval then (if Rltb (1/10) l then l else 1/10) else l in
  let l := with_memlum memlum lval l in
  match lmask with None => Err TypeError | Some m => Ok (with_lmask m l) end.
(** runcat.py:104-113 *)
Definition limlum_runcat (lval : R) (memlum lmask : option R) : R :=
  let l := with_memlum memlum lval (limlum0 lval) in
  match lmask with None => l | Some m => with_lmask m l end.
(** run_percolation.py:201-206: which cuts are applied to the members (use_memradius, use_memlum) *)
Definition member_cuts (memradius memlum : option R) : bool * bool :=
  (match memradius with Some r => Rltb 1 r | None => false end, false).
(** cluster_runner.py:394, 508: the magnitude of a luminosity in units of Lstar *)
Definition mag_of (mstar lum : R) : R := mstar - 25/10 * (ln lum / ln 10).

(** configuration.py:970-973, [scale0]: Mpc per degree at the lowest redshift *)
Definition border (s : settings) (scale0 : R) : R := 3 * (105/100 * st_prm0 s * Rpower (300/100) (st_prmb s) / scale0).
