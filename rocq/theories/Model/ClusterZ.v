(** The redshift of a Cluster and the quantities kept with it: cluster.py:156-162 (constructor), 173-215
    (set_neighbors), 217-264 (find_neighbors, update_neighbors_dist), 786-837 (redshift setter).
    mstar(z), the angular scale in Mpc/degree and the clip constants are as in the code; distances and radii are
    rationals; neighbour rows keep only dist and r. *)
From Verif.Base Require Import Py.

Record nbz := mkNZ { z_dist : Q; z_r : Q }.
Record clz := mkCZ { k_z : option Q; k_mstar : option Q; k_scale : option Q; k_nb : option (list nbz) }.
Record cosmo := mkCO { co_mstar : Q -> Q; co_scale : Q -> Q }.   (* zredstr.mstar, np.radians(1)*cosmo.Da(0, z) *)

(** cluster.py:830-837 *)
Definition compute_r (c : clz) : clz :=
  match k_nb c, k_z c, k_scale c with
  | Some l, Some _, Some s =>
      mkCZ (k_z c) (k_mstar c) (k_scale c)
           (Some (map (fun n => mkNZ (z_dist n) (Qmax2 (s * z_dist n)%Q (1 # 1000000))) l))
  | _, _, _ => c
  end.
(** cluster.py:786-801 *)
Definition set_redshift (co : cosmo) (z : Q) (c : clz) : res clz :=
  if Qlt_bool z 0 then Err ValueError
  else let z' := Qmax2 z (1 # 100) in
       Ok (compute_r (mkCZ (Some z') (Some (co_mstar co z')) (Some (co_scale co z')) (k_nb c))).
(** cluster.py:173-215; rows arrive with whatever dist and r they carry (0 for newly added fields) *)
Definition set_neighbors (l : list nbz) (c : clz) : clz := mkCZ (k_z c) (k_mstar c) (k_scale c) (Some l).
(** cluster.py:249-254, 261-264: new rows / new distances, then radii *)
Definition find_neighbors (l : list Q) (c : clz) : clz := compute_r (set_neighbors (map (fun d => mkNZ d 0) l) c).
Definition update_dist (ds : list Q) (c : clz) : res clz :=
  match k_nb c with
  | None => Err AttributeError
  | Some l => Ok (compute_r (mkCZ (k_z c) (k_mstar c) (k_scale c) (Some (map (fun p => mkNZ (snd p) (z_r (fst p))) (combine l ds)))))
  end.
(** cluster.py:266-272 *)
Definition clear_neighbors (c : clz) : clz := mkCZ (k_z c) (k_mstar c) (k_scale c) None.

Inductive cop := OpZ (z : Q) | OpSet (l : list nbz) | OpFind (l : list Q) | OpDist (l : list Q) | OpClear.
(** An operation that raises leaves the cluster as it was. *)
Definition cstep (co : cosmo) (o : cop) (c : clz) : clz * option exn :=
  match o with
  | OpZ z => match set_redshift co z c with Ok c' => (c', None) | Err x => (c, Some x) end
  | OpSet l => (set_neighbors l c, None)
  | OpFind l => (find_neighbors l c, None)
  | OpDist l => match update_dist l c with Ok c' => (c', None) | Err x => (c, Some x) end
  | OpClear => (clear_neighbors c, None)
  end.
Definition crun (co : cosmo) (ops : list cop) (c : clz) : clz := fold_left (fun a o => fst (cstep co o a)) ops c.

(** cluster.py:154-162: [z] is the catalog value, [has_str] whether a red-sequence structure was given *)
Definition new_cluster (co : cosmo) (nbs : option (list nbz)) (z : Q) (has_str : bool) : clz :=
  let c := mkCZ None None None nbs in
  if Qlt_bool 0 z && has_str then match set_redshift co z c with Ok c' => c' | Err _ => c end else c.
