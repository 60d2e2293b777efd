(** The run over all pixels: redmapper_run.py:56-152 (RedmapperRun.run), 272-291 (whether the outputs are made again), 395-399 and
    487-492 (the names of the tiles), 464-505 (the percolation-only worker).  The division of the sky, the workers and the merging of
    files are arguments (they are modelled in Chunks, Restart and Consolidate); files are opaque. *)
From Coq Require Import ZArith String.
From Verif.Base Require Import Py.
From Verif.Model Require Import Names.
From Coq Require Import List. Import ListNotations.
Local Open Scope list_scope.

(** the two settings that run changes *)
Record rcfg := mkRcfg { r_seed : option Z; r_nside : Z }.
Record args := mkArgs { a_specmode : bool; a_seedfile : option Z; a_check : bool; a_perc_only : bool; a_like : bool; a_keepz : bool; a_consolidate : bool }.
(** what a worker returns (462, 505): pixel and the files of the three steps *)
Record wres := mkWres { w_pix : Z; w_first : option Z; w_like : option Z; w_perc : option Z }.
(** the results of pool.map: the first exception, if any *)
Fixpoint gather {A} (l : list (res A)) : res (list A) :=
  match l with
  | [] => Ok []
  | r :: t => do x <- r; do y <- gather t; Ok (x :: y)
  end.
(** 131-134: the pixels with a file, and their files *)
Definition with_file (f : wres -> option Z) (l : list wres) : list (Z * Z) :=
  flat_map (fun w => match f w with Some x => [(w_pix w, x)] | None => [] end) l.
(** 272-291: kept, or made of the files; without files there is no first one *)
Inductive output := Kept | Made (files : list (Z * Z)).
Definition consolidate (check members : bool) (there memthere : bool) (merge : list (Z * Z) -> res unit) (files : list (Z * Z)) : res output :=
  if (check && (there && memthere && members || there && negb members))%bool then Ok Kept
  else match files with
       | [] => Err IndexError
       | _ => do _ <- merge files; Ok (Made files)
       end.
(** what is around a run: the division of the sky, the workers, the merging, the output files there before *)
Record world := mkWorld {
  splits : rcfg -> res (Z * list Z);
  work : bool -> rcfg -> Z -> res wres;
  merge_final : list (Z * Z) -> res unit; merge_like : list (Z * Z) -> res unit;
  there : bool * bool; there_like : bool }.
(** 90-152; the configuration is changed even if the run fails *)
Definition run (W : world) (a : args) (c : rcfg) : rcfg * res (option output * option output) :=
  if (a_specmode a && negb (a_keepz a))%bool then (c, Err RuntimeError)
  else if (a_perc_only a && a_specmode a)%bool then (c, Err RuntimeError)
  else match splits W c with
       | Err e => (c, Err e)
       | Ok (ns, pixels) =>
         let c1 := mkRcfg (match a_seedfile a with Some f => Some f | None => r_seed c end) ns in
         match gather (map (work W (a_perc_only a) c1) pixels) with
         | Err e => (c1, Err e)
         | Ok rs =>
           let c2 := mkRcfg (r_seed c) ns in
           match (if a_consolidate a
                  then do o <- consolidate (a_check a) true (fst (there W)) (snd (there W)) (merge_final W) (with_file w_perc rs); Ok (Some o)
                  else Ok None) with
           | Err e => (c2, Err e)
           | Ok fin =>
             match (if a_like a
                    then do o <- consolidate (a_check a) false (there_like W) false (merge_like W) (with_file w_like rs); Ok (Some o)
                    else Ok None) with
             | Err e => (c2, Err e)
             | Ok lk => (mkRcfg (r_seed c) (r_nside c), Ok (fin, lk))
             end
           end
         end
       end.

(** ** The names of the tiles *)
(** 399: '%s_%d_%05d' *)
Definition tile_base (base : str) (nside pix : Z) : str := base ++ s_ "_" ++ fmt 1 nside ++ s_ "_" ++ fmt 5 pix.
(** 492: '%s_%05d' *)
Definition perc_tile_base (base : str) (nside pix : Z) : str := base ++ s_ "_" ++ fmt 5 pix.
(** ** 494-505: the percolation-only worker; [p] the file, [m] the members: None absent, Some None begun, Some (Some c) complete;
    [r]: the catalog and the members the percolation gives *)
Definition file := option (option Z).
Record pdisk := mkPdisk { f_perc : file; f_mem : file }.
(** the disks one after another (first: before) and whether a file is returned *)
Definition perc_only (r : option (Z * Z)) (check : bool) (d : pdisk) : list pdisk * bool :=
  match f_perc d, check with
  | Some _, true => ([d], true)
  | _, _ => match r with
            | None => ([d], false)
            | Some (c, m) => ([d; mkPdisk (Some None) (f_mem d); mkPdisk (Some (Some c)) (f_mem d); mkPdisk (Some (Some c)) (Some None); mkPdisk (Some (Some c)) (Some (Some m))], true)
            end
  end.
(** killed after [k] writes, or finished *)
Definition killed_at (k : nat) (t : list pdisk * bool) (d : pdisk) : pdisk := nth (Nat.min k (length (fst t) - 1)) (fst t) d.
Definition finished (t : list pdisk * bool) (d : pdisk) : pdisk := last (fst t) d.
