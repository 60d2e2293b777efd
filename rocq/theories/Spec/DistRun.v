(** What the properties about a run in jobs speak about. *)
From Coq Require Import Ascii String QArith Permutation Sorting.Sorted.
From Verif.Base Require Import Py.
From Verif.Model Require Import Names Consolidate ConsFiles ConsOut DistRun.
From Verif.Spec Require Import ConsFiles Consolidate.
From Coq Require Import List. Import ListNotations.
Local Open Scope list_scope.
Local Open Scope nat_scope.

(** the directory during or after the run: the files of the tiles and others, in some order; the names in a directory are distinct, and no
    member table of an earlier run is in the way *)
Definition listing (base typ : str) (nside : Z) (out : Z -> option tables) (evs : list event) (ps : list Z) (d : dir) : Prop :=
  exists other, Permutation d (flat_map (tile_files base typ nside out evs) ps ++ other) /\ (forall x, In x other -> ~ of_form base typ (fst x) /\ forall p, fst x <> mem_name base typ nside p) /\ NoDup (map fst d).
(** names that are understood: no resolution and pixel in the path or the outbase, at most five digits for a pixel, not five for the
    resolution *)
Definition readable (path base : str) (nside : Z) (ps : list Z) : Prop :=
  ~ reads_as_tile (path ++ s_ "/" ++ base ++ s_ "_") /\ (0 <= nside)%Z /\ ~ (10000 <= nside < 100000)%Z /\ (forall p, In p ps -> (0 <= p < 100000)%Z) /\ NoDup ps.
(** a job that has written all, one that has written nothing, one in between *)
Definition ended (evs : list event) (p : Z) : Prop := 4 <= fst (job_after evs p).
Definition not_begun (evs : list event) (p : Z) : Prop := fst (job_after evs p) = 0.
(** the tiles with clusters among [ps], by number, each with what its job finds *)
Definition tables_of (out : Z -> option tables) (ps : list Z) (fs : list pfile) : Prop :=
  StronglySorted Z.lt (map f_hpix fs) /\ forall p cs ms, In (mkFile p cs ms) fs <-> In p ps /\ out p = Some (cs, ms).
