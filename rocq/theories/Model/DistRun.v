(** A run in jobs, one for each tile, and its consolidation at some moment: pipeline/redmappertask.py:100-112 (a job writes the catalogue
    of its tile, then the members, and does nothing if the catalogue is there), pipeline/redmapperconsolidatetask.py:77-135 (what the
    consolidation finds and reads), utilities.py:1094-1100 (read_members).  Jobs run side by side, may be killed and started again.
    Simplified: what a job finds for its tile is a function of the tile (Model/Restart has its earlier steps); as in Model/ConsOut all files are
    read before the first output is written. *)
From Coq Require Import Ascii String QArith.
From Verif.Base Require Import Py Sort.
From Verif.Model Require Import Names Galfile Consolidate ConsFiles ConsOut.
From Coq Require Import List. Import ListNotations.
Local Open Scope list_scope.
Local Open Scope nat_scope.

(** ** The jobs.  Write p: the job of tile p does its next step (begins the catalogue, ends it, begins the members, ends them);
    Kill p: it is killed, what runs from then on is another execution of it *)
Inductive event := Write (p : Z) | Kill (p : Z).
(** steps done, and whether the execution that did them was killed: a new execution goes on only if there is no catalogue (102-106) *)
Definition job := (nat * bool)%type.
Definition job_step (p : Z) (j : job) (e : event) : job :=
  match e with
  | Write q => if Z.eqb q p then (if (snd j && (1 <=? fst j))%bool then j else (S (fst j), false)) else j
  | Kill q => if Z.eqb q p then (fst j, true) else j
  end.
Definition job_after (evs : list event) (p : Z) : job := fold_left (job_step p) evs (0, false).

(** ** The directory; the names are those within it *)
Inductive content := Unfinished | CatF (cs : list cluster) | MemF (ms : list member) | Other.
Definition dir := list (str * content).
(** configuration.py:839-878 for the two files of a tile *)
Definition stem (base typ : str) (nside pix : Z) : str := base ++ s_ "_" ++ fmt 1 nside ++ s_ "_" ++ fmt 5 pix ++ s_ "_" ++ typ ++ s_ "_catalog".
Definition cat_name (base typ : str) (nside pix : Z) : str := stem base typ nside pix ++ s_ ".fit".
Definition mem_name (base typ : str) (nside pix : Z) : str := stem base typ nside pix ++ s_ "_members.fit".
(** [out]: what a job finds for its tile; None: no clusters, no files *)
Definition tile_files (base typ : str) (nside : Z) (out : Z -> option tables) (evs : list event) (p : Z) : dir :=
  match out p with
  | None => []
  | Some (cs, ms) =>
    let c := cat_name base typ nside p in let m := mem_name base typ nside p in
    match fst (job_after evs p) with
    | 0 => []
    | 1 => [(c, Unfinished)]
    | 2 => [(c, CatF cs)]
    | 3 => [(c, CatF cs); (m, Unfinished)]
    | _ => [(c, CatF cs); (m, MemF ms)]
    end
  end.

(** ** The consolidation *)
Definition look (path : str) (d : dir) (f : str) : option content :=
  option_map snd (find (fun x => str_eqb (path ++ s_ "/" ++ fst x) f) d).
(** 123-127; utilities.py:1096-1097 *)
Definition read_tile (path : str) (d : dir) (fp : str * Z) : res pfile :=
  match look path d (fst fp) with
  | Some (CatF cs) =>
    match look path d (members_file (fst fp)) with
    | None => Err RuntimeError
    | Some (MemF ms) => Ok (mkFile (snd fp) cs ms)
    | Some _ => Err OSError
    end
  | _ => Err OSError
  end.
(** [q]: the cut for a resolution *)
Definition cons_run (asort : list Q -> list nat) (q : Z -> pcut) (sel : bool) (os : list output) (path base typ : str) (d : dir) (disk0 : disk) : disk * res unit :=
  match tiles path base typ (map fst d) with
  | Err e => (disk0, Err e)
  | Ok (n, fs) => match mapM (read_tile path d) fs with
                  | Err e => (disk0, Err e)
                  | Ok pf => consolidate_all asort (q n) sel os pf disk0
                  end
  end.
