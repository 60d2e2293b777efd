(** Specification for C150 and C151. *)
From Coq Require Import ZArith String.
From Verif.Base Require Import Py.
From Verif.Model Require Import RedRun.
From Coq Require Import List. Import ListNotations.

(** a plain name of a file *)
Definition plain_name (p : path) : Prop := exists n, p = mkPath false [n] /\ n <> "."%string /\ n <> ""%string.
(** a working directory: no empty or dot components *)
Definition clean (cwd : list string) : Prop := ~ In "."%string cwd /\ ~ In ""%string cwd.
(** every file that is asked for exists, with its parts *)
Definition all_there (k : checks) (f : files) : Prop :=
  (k_zred k = true -> f_zred f = Named true) /\ (k_bkg k = true -> f_bkg f = Named true) /\
  (k_parts k = true -> f_bkg f = Named true /\ In "CHISQBKG"%string (f_exts f) /\ In "ZREDBKG"%string (f_exts f)) /\
  (k_par k = true -> f_par f = Named true) /\ (k_zlambda k = true -> f_zlambda f = Named true) /\ (k_rand k = true -> f_rand f = Named true).
(** every file that is asked for is configured *)
Definition all_named (k : checks) (f : files) : Prop :=
  (k_zred k = true -> f_zred f <> Unset) /\ (k_bkg k = true -> f_bkg f <> Unset) /\ (k_par k = true -> f_par f <> Unset) /\
  (k_zlambda k = true -> f_zlambda f <> Unset) /\ (k_rand k = true -> f_rand f <> Unset).
