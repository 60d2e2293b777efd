(** Model of redmapper/configuration.py: logging to files (425, 441-448, 568-612). *)
From Coq Require Import String Ascii.
From Verif.Base Require Import Py.
From Verif.Model Require Import Names.
From Coq Require Import List. Import ListNotations.

(** A configuration object, as far as logging goes.  [c_logger]: name of its logger, made from the configured pixels when the
    object is built (441-446): [Some p] for redmapper-p, [None] for redmapper.  [c_print] is printlogging, [c_started] the private
    flag (425), [c_base] and [c_hpix] are d.outbase and d.hpix, which tasks change later. *)
Record conf := mkConf { c_logger : option Z; c_print : bool; c_started : bool; c_base : str; c_hpix : list Z }.
Definition logger_name (hpix : list Z) : option Z := match hpix with [p] => Some p | _ => None end.
Definition logger_eqb (a b : option Z) : bool :=
  match a, b with Some x, Some y => (x =? y)%Z | None, None => true | _, _ => false end.

(** The process: configuration objects by number; the handlers of every logger (logging.getLogger returns the same object for the
    same name), each a log file by name; the messages in every log file.  The console is not modelled. *)
Record world := mkW { confs : nat -> conf; handlers : option Z -> list str; logs : str -> list Z }.
Definition set_conf (w : world) (i : nat) (c : conf) : world :=
  mkW (fun k => if Nat.eqb k i then c else confs w k) (handlers w) (logs w).
Definition set_handlers (w : world) (l : option Z) (hs : list str) : world :=
  mkW (confs w) (fun k => if logger_eqb k l then hs else handlers w k) (logs w).

(** configuration.py:593-597: the name of the log file in the log directory.  A given name is used without its directory (the
    caller passes a bare name here). *)
Definition log_file (c : conf) (filename : option str) : res str :=
  match filename with
  | Some f => Ok f
  | None => match c_hpix c with
            | [] => Err IndexError
            | p :: _ => Ok (s_ "redmapper_" ++ c_base c ++ s_ "_" ++ fmt 4 p ++ s_ ".log")
            end
  end.
(** configuration.py:574-602.  The message of 587 is left out. *)
Definition start_file_logging (w : world) (i : nat) (filename : option str) : world * res unit :=
  let c := confs w i in
  if c_started c then (w, Ok tt)
  else if c_print c then (w, Ok tt)
  else match log_file c filename with
       | Err e => (w, Err e)
       | Ok f => (set_conf (set_handlers w (c_logger c) (handlers w (c_logger c) ++ [f])) i
                    (mkConf (c_logger c) (c_print c) true (c_base c) (c_hpix c)), Ok tt)
       end.
(** configuration.py:604-610 *)
Definition stop_file_logging (w : world) (i : nat) : world := set_handlers w (c_logger (confs w i)) [].
(** logger.info: every handler of the logger writes the message once *)
Definition count_str (f : str) (hs : list str) : nat :=
  List.length (filter (fun h => if list_eq_dec ascii_dec h f then true else false) hs).
Definition info (w : world) (i : nat) (m : Z) : world :=
  mkW (confs w) (handlers w) (fun f => logs w f ++ repeat m (count_str f (handlers w (c_logger (confs w i))))).

(** What a program does with its configurations: 442-448 build (a new one starts with the flag down), 572 copy, d.hpix changed,
    logging started, stopped, messages. *)
Inductive op :=
| New (i : nat) (print : bool) (base : str) (hpix : list Z)
| Copy (i j : nat)
| Pixels (i : nat) (hpix : list Z)
| Start (i : nat) (filename : option str)
| Stop (i : nat)
| Info (i : nat) (m : Z).
Definition step (w : world) (o : op) : world * res unit :=
  match o with
  | New i p b h => (set_conf w i (mkConf (logger_name h) p false b h), Ok tt)
  | Copy i j => (set_conf w j (confs w i), Ok tt)
  | Pixels i h => let c := confs w i in (set_conf w i (mkConf (c_logger c) (c_print c) (c_started c) (c_base c) h), Ok tt)
  | Start i f => start_file_logging w i f
  | Stop i => (stop_file_logging w i, Ok tt)
  | Info i m => (info w i m, Ok tt)
  end.
(** an exception ends the program *)
Fixpoint play (w : world) (os : list op) : world * res unit :=
  match os with
  | [] => (w, Ok tt)
  | o :: t => match step w o with (w1, Ok _) => play w1 t | (w1, Err e) => (w1, Err e) end
  end.
