(** The redshift correction inside a run, as it acts on the catalogue: cluster_runner.py:454-468 with the in-place arithmetic of
    zlambda.py:665-734 and the views of catalog.py:84-103, 230-244, 313-316 (a cluster of the loop is a view of its row: assigning one of its columns
    writes the catalogue, assigning any other name only the object).
    Simplifications: cells are lists of reals (scalars: one entry), single precision is ignored; a correction that raises leaves the
    run, so the catalogue is then not looked at. *)
From Coq Require Import String Reals.
From Verif.Base Require Import Py Fn.
From Verif.Model Require Import Catalog ZCorr.
Local Open Scope R_scope.

(** The memory of a catalogue: its column names (lower case) and, for each row and column, the cell. *)
Record catmem := mkM { m_cols : list string; m_cell : nat -> string -> list R }.
Definition put (m : catmem) (i : nat) (x : string) (v : list R) : catmem :=
  mkM (m_cols m) (upd (m_cell m) i (fun y => if String.eqb y x then v else m_cell m i y)).

(** catalog.py:90-103 for the cluster of row i: a value of length one fills the cell, any other must have its length; a name that is not
    a column becomes an attribute of the object *)
Definition attrs : Type := list (string * list R).
Definition assign (m : catmem) (a : attrs) (i : nat) (name : string) (v : list R) : res (catmem * attrs) :=
  if mem_str (lower name) (m_cols m) then
    let w := List.length (m_cell m i (lower name)) in
    match v with
    | [x] => Ok (put m i (lower name) (repeat x w), a)
    | _ => if Nat.eqb (List.length v) w then Ok (put m i (lower name) v, a) else Err ValueError
    end
  else Ok (m, (name, v) :: a).

(** zlambda.py:701-729 with the values given as the cell of column pz in row i: [pzvals /= n] divides that cell in place, [pzbins] is bound
    to a new array *)
Fixpoint corr_mem (simps : list R -> list R -> R) (c : corr) (k left : nat) (m : catmem) (i : nat) (s : R * R * list R)
  : res (catmem * (R * R * list R)) :=
  match left with
  | 0%nat => Ok (m, s)
  | S l =>
    let '(z, e, bins) := s in
    let x := c_xe c k z in
    let z' := z + c_dz c k z in
    do p <- pz_step simps z z' e x (bins, m_cell m i "pz");
    corr_mem simps c (S k) l (put m i "pz" (snd p)) i (z', sqrt (e ^ 2 + x ^ 2), fst p)
  end.

(** cluster_runner.py:454-462, 467-468 for the cluster of row i; [corr_of] are the correction tables for a richness *)
Definition scalar (m : catmem) (i : nat) (x : string) : res R := match m_cell m i x with [v] => Ok v | _ => Err TypeError end.
Definition correct_row (simps : list R -> list R -> R) (corr_of : R -> corr) (m : catmem) (i : nat) : res (catmem * attrs) :=
  do lam <- scalar m i "lambda";
  do z <- scalar m i "z_lambda";
  do e <- scalar m i "z_lambda_e";
  do r <- corr_mem simps (corr_of lam) 0 (c_niter (corr_of lam)) m i (z, e, m_cell m i "pzbins");
  let '(m1, (z', e', bins')) := r in
  do p1 <- assign m1 [] i "pzbins" bins';
  do p2 <- assign (fst p1) (snd p1) i "pzvals" (m_cell (fst p1) i "pz");
  do p3 <- assign (fst p2) (snd p2) i "z_lambda" [z'];
  assign (fst p3) (snd p3) i "z_lambda_e" [e'].

(** the loop over clusters, 385 *)
Fixpoint correct_rows (simps : list R -> list R -> R) (corr_of : R -> corr) (m : catmem) (rows : list nat) : res catmem :=
  match rows with
  | [] => Ok m
  | i :: r => do p <- correct_row simps corr_of m i; correct_rows simps corr_of (fst p) r
  end.
