(** The catalogue with which a run starts: run_randoms_zmask.py:72-111 (random points), run_zscan.py:51-90 (scan in redshift),
    runcat.py:78-87 and cluster_runner.py:288-301 (given clusters).
    Simplifications: cells are integers (Model/Catalog.v); the steps of the scan are given as a list of cells. *)
From Coq Require Import String.
From Verif.Base Require Import Py.
From Verif.Model Require Import Catalog ClusCat.
From Verif.Model Require Runner.
From Coq Require Import List.
Import ListNotations.
Local Open Scope string_scope.

(** catalog.py:84-88: reading an attribute that is not a column *)
Definition attr (t : table) (a : string) : res (list Z) :=
  match get_attr t a with Some v => Ok v | None => Err AttributeError end.
(** catalog.py:90-103: an attribute that is no column leaves the table as it is *)
Definition assign (t : table) (a : string) (v : pyval) : res table :=
  do r <- set_attr t a v; Ok (match r with Some u => u | None => t end).
(** [cat.a = incat.b] for a list of (a, b) *)
Fixpoint copy_columns (src : table) (l : list (string * string)) (t : table) : res table :=
  match l with
  | [] => Ok t
  | (a, b) :: r => do v <- attr src b; do u <- assign t a (Seq v); copy_columns src r u
  end.

(** run_randoms_zmask.py:104-111 *)
Definition zmask_copies : list (string * string) :=
  [("ra", "ra"); ("dec", "dec"); ("mem_match_id", "id"); ("z", "z"); ("Lambda", "Lambda"); ("id_input", "id_input");
   ("lambda_in", "Lambda"); ("z_in", "z")].
(** run_randoms_zmask.py:72-111: [incat] is the table of random points *)
Definition zmask_start (incat : table) (config : list string) : res table :=
  do c <- randoms_cat (nrows incat) config;
  copy_columns incat zmask_copies (cc_tab c).

(** cluster_runner.py:288-301: identifiers that are distinct stay (assigning them again changes nothing) *)
Definition number (t : table) : res table :=
  do ids <- attr t "mem_match_id";
  do new <- Runner.generate_ids ids;
  assign t "mem_match_id" (Seq new).

(** runcat.py:78-87 *)
Definition runcat_start (file : table) (config : list string) : res table :=
  do c <- from_catfile file (Some config); number (cc_tab c).

(** run_zscan.py:51-90 *)
Definition zscan_start (file : table) (config : list string) (steps : list Z) : res table :=
  do c <- zscan_open file config;
  do t1 <- number (cc_tab c);
  do ra <- attr t1 "ra"; do t2 <- assign t1 "ra_orig" (Seq ra);
  do dec <- attr t2 "dec"; do t3 <- assign t2 "dec_orig" (Seq dec);
  match steps with
  | [] => Err IndexError
  | z0 :: _ => do t4 <- assign t3 "z_init" (Scalar z0); assign t4 "z" (Scalar z0)
  end.
