(** The run over all tiles, from the workers to the merged catalog, with executions that are killed and started again:
    redmapper_run.py:120-152 (workers and merging), 272-367 (merging), 369-462 (a worker).  The worker is that of Model/Restart, the merging
    that of Model/Consolidate, the results of the workers are collected as in Model/RunAll; every tile has its own files (C141_names), which
    are named here by the pixel. *)
From Coq Require Import QArith ZArith.
From Verif.Base Require Import Py.
From Verif.Model Require Import Restart Consolidate RunAll.
From Coq Require Import List. Import ListNotations.
Local Open Scope nat_scope.

Section Tiles.
  Variables (asort : list Q -> list nat) (q : pcut).
  (** what the three steps give for each tile, and the rows of a file with a given content *)
  Variables (R : Z -> Restart.runs) (cat_of : Z -> list cluster) (mem_of : Z -> list member).

  (** 462: what the worker of a tile returns *)
  Definition tile_work (disks : Z -> disk) (p : Z) : res wres :=
    do r <- snd (worker (R p) true (disks p));
    Ok (mkWres p None None (match r with Some _ => Some p | None => None end)).
  (** 298-321: one file is read, its members only if a cluster is used *)
  Definition read_tile (d : disk) (p : Z) : res pfile :=
    do c <- read_file (d_perc d);
    match filter (in_pixel_cut q p) (cat_of c) with
    | [] => Ok (mkFile p (cat_of c) [])
    | _ => do m <- read_file (d_mem d); Ok (mkFile p (cat_of c) (mem_of m))
    end.
  (** an execution that is not killed, on the files [disks], with no merged catalog there *)
  Definition tile_run (pixels : list Z) (disks : Z -> disk) : res (list cluster * list member) :=
    do rs <- gather (map (tile_work disks) pixels);
    match with_file w_perc rs with
    | [] => Err IndexError
    | files => do fs <- gather (map (fun pf => read_tile (run_full (R (snd pf)) true (disks (snd pf))) (fst pf)) files);
               Consolidate.consolidate asort q fs
    end.
  (** executions that are killed, each after some number of steps in each worker *)
  Definition attempts_on (attempts : list (Z -> nat)) (disks : Z -> disk) : Z -> disk :=
    fun p => restarts (R p) true (map (fun a => a p) attempts) (disks p).
End Tiles.

(** ** 272-291 and 357-365: the two files of the merged catalog; [c], [m]: what is written (clobber) *)
Definition out := (fstate * fstate)%type.
Definition out_events (check : bool) (c m : Z) (o : out) : list out :=
  if (check && exists_file (fst o) && exists_file (snd o))%bool then []
  else [(Torn, snd o); (Full c, snd o); (Full c, Torn); (Full c, Full m)].
Definition out_once (check : bool) (c m : Z) (k : nat) (o : out) : out := last (firstn k (out_events check c m o)) o.
Definition out_full (check : bool) (c m : Z) (o : out) : out := last (out_events check c m o) o.
