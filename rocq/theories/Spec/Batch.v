(** Vocabulary for the statements about batch jobs. *)
From Coq Require Import Ascii String.
From Verif.Base Require Import Py.
From Verif.Model Require Import Names Batch.
Local Open Scope list_scope.

(** characters with a meaning for the shell, python or one of the two rounds of formatting *)
Definition special : str := s_ "%{}'\$ ""`&;|<>()*?[]#!^~" ++ [ascii_of_nat 10; ascii_of_nat 9].
Definition plain (s : str) : Prop := forall c, In c s -> ~ In c special.
(** an absolute name [dir]/[base] without such characters *)
Definition plain_file (dir base : str) : Prop := plain dir /\ plain base /\ (exists d, dir = "/"%char :: d) /\ ~ In "/"%char base.
(** a command line of these words *)
Fixpoint sentence (ws : list str) : str := match ws with [] => [] | w :: t => match t with [] => w | _ => w ++ " "%char :: sentence t end end.
(** the runs of the batch script *)
Definition modes : list (Z * kind) := [(0%Z, KRedmapper); (1%Z, KZred); (2%Z, KRuncat); (3%Z, KZmask); (4%Z, KZscan)].
Definition submits (b : batch_system) : Prop := b = LSF \/ b = ParslLocal \/ b = ParslSlurm.
