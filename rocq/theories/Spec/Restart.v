(** What a run should leave behind. *)
From Coq Require Import ZArith.
From Verif.Base Require Import Py.
From Verif.Model Require Import Restart.

(** the files of an uninterrupted run on an empty directory *)
Definition expected (R : runs) : disk :=
  match r_first R with
  | None => empty_disk
  | Some c => match r_like R c with
              | None => mkDisk (Full c) Absent Absent Absent
              | Some l => match r_perc R l with
                          | None => mkDisk (Full c) (Full l) Absent Absent
                          | Some (p, m) => mkDisk (Full c) (Full l) (Full p) (Full m)
                          end
              end
  end.
(** the disk is not in the middle of an output: no unfinished file, and not a percolation catalog without its members *)
Definition not_writing (d : disk) : Prop :=
  d_first d <> Torn /\ d_like d <> Torn /\ d_perc d <> Torn /\ d_mem d <> Torn /\ (d_perc d <> Absent -> d_mem d <> Absent).
(** no execution of the history is killed in the middle of an output *)
Fixpoint quiet (R : runs) (ks : list nat) (d : disk) : Prop :=
  match ks with [] => True | k :: t => not_writing (run_once R true k d) /\ quiet R t (run_once R true k d) end.
