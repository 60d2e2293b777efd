(** What the statements about written configurations need. *)
From Coq Require Import ZArith String QArith.
From Verif.Base Require Import Py.
From Verif.Model Require Import Config.
From Verif.Spec Require Import Config.
From Coq Require Import List. Import ListNotations.
Local Open Scope string_scope.

(** the statistics of a galaxy file: their names (configuration.py:661-783), each once, with a number for the area *)
Definition stat_names : list string :=
  ["galfile_pixelized"; "survey_mode"; "area"; "limmag_ref"; "nmag"; "zeropoint"; "ref_ind"; "b"; "galfile_nside"; "bands"; "galfile_has_truth"; "galfile_has_zspec"].
Definition is_number (v : value) : Prop := exists q, v = VAtom (ANum q).
Definition statistics (E : env) : Prop :=
  forall g r st, e_stats E g r = Ok st -> NoDup (map fst st) /\ incl (map fst st) stat_names /\ exists v, In ("area", v) st /\ is_number v.
(** the options that hold arrays *)
Definition array_option (n : string) : Prop := exists f, In f options /\ f_name f = n /\ f_kind f = KArray.
Definition option_name (n : string) : Prop := exists f, In f options /\ f_name f = n.
Definition is_sequence (v : value) : Prop := exists l, v = VSeq l.
(** a redshift range of two numbers *)
Definition numeric_range (v : value) : Prop := exists a b, v = VSeq [ANum a; ANum b].
