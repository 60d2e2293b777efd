(** A pixel worker and its restarts: redmapper_run.py:369-462; cluster_runner.py:628-662 (output). *)
From Coq Require Import ZArith.
From Verif.Base Require Import Py.

(** A file: missing, begun but not finished, or complete. *)
Inductive fstate := Absent | Torn | Full (content : Z).
Record disk := mkDisk { d_first : fstate; d_like : fstate; d_perc : fstate; d_mem : fstate }.
Definition empty_disk : disk := mkDisk Absent Absent Absent Absent.
Definition exists_file (f : fstate) : bool := match f with Absent => false | _ => true end.      (* os.path.isfile *)
(** The three runs as functions of the file they read; None: no catalog or an empty one (408-412, 429-433, 450-454). *)
Record runs := mkRuns { r_first : option Z; r_like : Z -> option Z; r_perc : Z -> option (Z * Z) }.
(** What an execution does: run step number n, or change the disk. *)
Inductive ev := Comp (n : nat) | Put (d : disk).
Definition after_ev (d : disk) (e : ev) : disk := match e with Comp _ => d | Put d' => d' end.
(** Disk after the first k events *)
Definition crash (evs : list ev) (k : nat) (d : disk) : disk := fold_left after_ev (firstn k evs) d.
(** reading a catalog *)
Definition read_file (f : fstate) : res Z := match f with Full c => Ok c | Torn => Err OSError | Absent => Err OSError end.

Definition set_first d f := mkDisk f (d_like d) (d_perc d) (d_mem d).
Definition set_like d f := mkDisk (d_first d) f (d_perc d) (d_mem d).
Definition set_perc d f := mkDisk (d_first d) (d_like d) f (d_mem d).
Definition set_mem d f := mkDisk (d_first d) (d_like d) (d_perc d) f.

(** Lines 445-462 *)
Definition do_perc (R : runs) (check : bool) (d : disk) : list ev * res (option unit) :=
  if (exists_file (d_perc d) && check)%bool then ([], Ok (Some tt))
  else match read_file (d_like d) with
       | Err e => ([], Err e)
       | Ok c => match r_perc R c with
                 | None => ([Comp 2], Ok None)
                 | Some (p, m) =>
                   let d1 := set_perc d Torn in let d2 := set_perc d (Full p) in
                   let d3 := set_mem d2 Torn in let d4 := set_mem d2 (Full m) in
                   ([Comp 2; Put d1; Put d2; Put d3; Put d4], Ok (Some tt))
                 end
       end.
(** Lines 424-443 and on *)
Definition do_like (R : runs) (check : bool) (d : disk) : list ev * res (option unit) :=
  if (exists_file (d_like d) && check)%bool then do_perc R check d
  else match read_file (d_first d) with
       | Err e => ([], Err e)
       | Ok c => match r_like R c with
                 | None => ([Comp 1], Ok None)
                 | Some l =>
                   let d1 := set_like d Torn in let d2 := set_like d (Full l) in
                   let '(evs, r) := do_perc R check d2 in
                   (Comp 1 :: Put d1 :: Put d2 :: evs, r)
                 end
       end.
(** Lines 403-422 and on: the events and the result of a worker that is not killed *)
Definition worker (R : runs) (check : bool) (d : disk) : list ev * res (option unit) :=
  if (exists_file (d_first d) && check)%bool then do_like R check d
  else match r_first R with
       | None => ([Comp 0], Ok None)
       | Some c =>
         let d1 := set_first d Torn in let d2 := set_first d (Full c) in
         let '(evs, r) := do_like R check d2 in
         (Comp 0 :: Put d1 :: Put d2 :: evs, r)
       end.
Definition run_once (R : runs) (check : bool) (k : nat) (d : disk) : disk := crash (fst (worker R check d)) k d.
Definition run_full (R : runs) (check : bool) (d : disk) : disk := fold_left after_ev (fst (worker R check d)) d.
(** A history: the event counts at which successive executions are killed *)
Definition restarts (R : runs) (check : bool) (ks : list nat) (d : disk) : disk := fold_left (fun d k => run_once R check k d) ks d.
