(** Specification for C167 and C168. *)
From Coq Require Import QArith ZArith.
From Verif.Base Require Import Py.
From Verif.Model Require Import Restart Consolidate.
From Coq Require Import List. Import ListNotations.

(** the catalog and the members of a tile: the three steps one after another, each on what the one before gave *)
Definition tile_of (R : runs) (cat_of : Z -> list cluster) (mem_of : Z -> list member) : option (list cluster * list member) :=
  match r_first R with
  | None => None
  | Some c => match r_like R c with
              | None => None
              | Some l => match r_perc R l with None => None | Some (p, m) => Some (cat_of p, mem_of m) end
              end
  end.
(** the tiles that have a catalog, in order *)
Fixpoint tile_files (R : Z -> runs) (cat_of : Z -> list cluster) (mem_of : Z -> list member) (pixels : list Z) : list pfile :=
  match pixels with
  | [] => []
  | p :: t => match tile_of (R p) cat_of mem_of with
              | Some (c, m) => mkFile p c m :: tile_files R cat_of mem_of t
              | None => tile_files R cat_of mem_of t
              end
  end.
(** the files of a tile that no later execution changes or can use: a file was begun and not finished, or the members of a catalog with
    usable clusters are missing *)
Definition stuck (used : Z -> Prop) (d : disk) : Prop :=
  (d_first d = Torn /\ d_like d = Absent) \/
  (d_first d <> Absent /\ d_like d = Torn /\ d_perc d = Absent) \/
  (d_first d <> Absent /\ d_like d <> Absent /\ d_perc d = Torn) \/
  (d_first d <> Absent /\ d_like d <> Absent /\ exists c, d_perc d = Full c /\ used c /\ (d_mem d = Absent \/ d_mem d = Torn)).
