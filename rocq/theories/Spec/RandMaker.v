(** What a user expects of the files and the sources of the random points. *)
From Coq Require Import Ascii String QArith.
From Verif.Base Require Import Py.
From Coq Require Import List. Import ListNotations.
Local Open Scope string_scope.

(** the name ends like the master table of a catalogue, whatever stands for the dot *)
Definition looks_like (name base : string) (c : ascii) : Prop := name = base ++ "_master_table" ++ String c "fit".
(** there is a directory in the name *)
Definition in_directory (name : string) : Prop := exists a b, name = a ++ "/" ++ b.
Definition six_keys : list string := ["LIM_REF"; "REF_IND"; "AREA"; "NMAG"; "MODE"; "ZP"].
