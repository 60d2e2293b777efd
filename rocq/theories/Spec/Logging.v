(** Specification for C163. *)
From Coq Require Import String Ascii.
From Verif.Base Require Import Py.
From Verif.Model Require Import Names Logging.
From Coq Require Import List. Import ListNotations.

(** messages sent to the logger [l] in a program *)
Fixpoint sent (loggers : nat -> option Z) (l : option Z) (os : list (nat * Z)) : list Z :=
  match os with
  | [] => []
  | (i, m) :: t => if logger_eqb (loggers i) l then m :: sent loggers l t else sent loggers l t
  end.
Definition messages (os : list (nat * Z)) : list op := map (fun p => Info (fst p) (snd p)) os.
(** ready to log to a file: not printing only, nothing started, no handlers yet *)
Definition ready (w : world) (i : nat) : Prop :=
  c_print (confs w i) = false /\ c_started (confs w i) = false /\ handlers w (c_logger (confs w i)) = [].
