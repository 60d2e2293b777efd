(** The per-pixel tasks of the pipeline: pipeline/redmappertask.py:38-115 (RunRedmapperPixelTask), 150-180
    (RuncatPixelTask), 213-249 (RunZmaskPixelTask), 282-310 (RunZScanPixelTask), with cluster_runner.py:628-673
    (output, filename), catalog.py:126-151 (to_fits_file) and configuration.py:438-439, 839-870 (output path, file names).
    Files are lists of tables: [fitsio.write] without clobber appends a table to an existing file, and a reader of the
    first extension gets the first.  A file is written in one step (simplified); a kill falls between two writes.
    What the runs compute is a parameter, any function of the number of the run (they draw random numbers). *)
From Verif.Base Require Import Py.
From Coq Require Import String.
Local Open Scope nat_scope.
Local Open Scope list_scope.

Inductive kind := First | Like | Final | Lambda | Zmask | Zscan.
(** a file of the pixel: kind, with the code's version in its name, member table *)
Record fname := mkFN { fn_kind : kind; fn_version : bool; fn_members : bool }.
Definition kind_eqb (a b : kind) : bool :=
  match a, b with First, First | Like, Like | Final, Final | Lambda, Lambda | Zmask, Zmask | Zscan, Zscan => true | _, _ => false end.
Definition fname_eqb (a b : fname) : bool :=
  kind_eqb (fn_kind a) (fn_kind b) && Bool.eqb (fn_version a) (fn_version b) && Bool.eqb (fn_members a) (fn_members b).
Definition table := Z.
Definition fs := fname -> list table.                (* []: no such file *)
Definition present (d : fs) (n : fname) : bool := match d n with [] => false | _ => true end.
(** to_fits_file without clobber *)
Definition write (d : fs) (w : fname * table) : fs :=
  fun n => if fname_eqb n (fst w) then d n ++ [snd w] else d n.
Definition writes (d : fs) (l : list (fname * table)) : fs := fold_left write l d.
(** reading extension 1 *)
Definition read (d : fs) (n : fname) : res table := match d n with [] => Err OSError | t :: _ => Ok t end.

(** what a run of a given number computes: None: no catalog; the member table may be missing too *)
Record runs := mkRuns {
  r_first : nat -> option table;
  r_like : nat -> table -> option table;
  r_perc : nat -> table -> option (table * option table);
  r_zmask : nat -> option table;
  r_zscan : nat -> option (table * option table) }.

(** cluster_runner.py:628-662 *)
Definition output (k : kind) (version savemembers : bool) (cat : option (table * option table)) : list (fname * table) :=
  match cat with
  | None => []
  | Some (c, m) =>
      (mkFN k version false, c) ::
      (if savemembers then match m with Some t => [(mkFN k version true, t)] | None => [] end else [])
  end.
(** the name of a run that has not written anything yet: cluster_runner.py:669-671 *)
Definition fresh_name (k : kind) : fname := mkFN k false false.
Definition nomem (t : option table) : option (table * option table) := option_map (fun c => (c, None)) t.

(** A task: the writes it makes, in order, and how it ends. *)
Definition trace : Type := list (fname * table) * res unit.
(** one stage that does not read a catalog *)
Definition stage0 (d : fs) (k : kind) (version savemembers : bool) (cat : option (table * option table)) : list (fname * table) :=
  if present d (fresh_name k) then [] else output k version savemembers cat.
(** one stage that reads the catalog [inp], if it is run at all *)
Definition stage (d : fs) (inp : fname) (k : kind) (savemembers : bool) (f : table -> option (table * option table)) : res (list (fname * table)) :=
  if present d (fresh_name k) then Ok []
  else do t <- read d inp; Ok (output k false savemembers (f t)).
(** redmappertask.py:64-115 *)
Definition redmapper_task (r : runs) (pixelized : bool) (n : nat) (d : fs) : trace :=
  if negb pixelized then ([], Err ValueError)
  else
    let w1 := stage0 d First false false (nomem (r_first r n)) in
    let d1 := writes d w1 in
    match stage d1 (fresh_name First) Like false (fun t => nomem (r_like r n t)) with
    | Err e => (w1, Err e)
    | Ok w2 =>
        let d2 := writes d1 w2 in
        match stage d2 (fresh_name Like) Final true (r_perc r n) with
        | Err e => (w1 ++ w2, Err e)
        | Ok w3 => (w1 ++ w2 ++ w3, Ok tt)
        end
    end.
(** redmappertask.py:157-180: RunCatalog is not imported in this module *)
Definition runcat_task (pixelized : bool) (d : fs) : trace :=
  if negb pixelized then ([], Err ValueError) else ([], Err NameError).
(** redmappertask.py:225-249 *)
Definition zmask_task (r : runs) (pixelized : bool) (n : nat) (d : fs) : trace :=
  if negb pixelized then ([], Err ValueError) else (stage0 d Zmask false false (nomem (r_zmask r n)), Ok tt).
(** redmappertask.py:288-310: written with the version, looked for without *)
Definition zscan_task (r : runs) (pixelized : bool) (n : nat) (d : fs) : trace :=
  if negb pixelized then ([], Err ValueError) else (stage0 d Zscan true true (r_zscan r n), Ok tt).

(** A history of runs of a task, numbered from [n]: each entry says after how many writes it is killed *)
Fixpoint history (task : nat -> fs -> trace) (n : nat) (kills : list nat) (d : fs) : fs :=
  match kills with
  | [] => d
  | k :: t => history task (S n) t (writes d (firstn k (fst (task n d))))
  end.

(** redmappertask.py:38-43 (the same in all four tasks), configuration.py:438-439: [yaml] is the output path in the
    configuration file, './' when it has none; outpath is computed, but path is passed on *)
Definition output_dir (dirname : string -> string) (configfile : string) (yaml : option string) (path : option string) : string :=
  let outpath := match path with None => dirname configfile | Some p => p end in
  let given := path in
  match given with Some p => p | None => match yaml with Some p => p | None => "./"%string end end.
