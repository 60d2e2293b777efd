(** The message on memory: utilities.py:1102-1132 [getMemoryString].  A status file is its lines, split at blanks; [parse]: int of a text, or nothing.  The values, in kB, are divided by 1000 in
    floating point and cut by the format; here they are divided as integers. *)
From Coq Require Import ZArith Ascii String.
From Verif.Base Require Import Py.
From Verif.Model Require Import Names Catalog.
From Coq Require Import List. Import ListNotations.
Local Open Scope list_scope.

(** the message: current and peak in MB, or that there is no status *)
Inductive memory := Usage (rss peak : Z) | NoStatus.
(** parts[0][2:-1].lower() *)
Definition key_of (k : str) : str := map lower_ascii (skipn 2 (removelast k)).
Definition eq_str (a b : str) : bool := if list_eq_dec ascii_dec a b then true else false.
(** one line; the state is (rss, peak) in kB *)
Definition status_line (parse : str -> option Z) (acc : Z * Z) (parts : list str) : res (Z * Z) :=
  match parts with
  | [] => Err IndexError
  | k :: t =>
      let key := key_of k in
      if (eq_str key (s_ "peak") || eq_str key (s_ "rss"))%bool then
        match t with
        | [] => Err IndexError
        | v :: _ => match parse v with None => Err ValueError | Some n => Ok (if eq_str key (s_ "rss") then (n, snd acc) else (fst acc, n)) end
        end
      else Ok acc
  end.
Fixpoint status_lines (parse : str -> option Z) (acc : Z * Z) (l : list (list str)) : res (Z * Z) :=
  match l with [] => Ok acc | x :: t => do a <- status_line parse acc x; status_lines parse a t end.
(** [None]: the file cannot be read *)
Definition memory_string (parse : str -> option Z) (status : option (list (list str))) : memory :=
  match status with
  | None => NoStatus
  | Some l => match status_lines parse (0, 0)%Z l with Ok (r, p) => Usage (Z.quot r 1000) (Z.quot p 1000) | Err _ => NoStatus end
  end.
