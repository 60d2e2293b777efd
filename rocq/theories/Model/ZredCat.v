(** Model of redmapper/zred_runner.py: redshifts of a catalog in one file (44-149). *)
From Verif.Base Require Import Py.
From Verif.Model Require Import Chunks.
From Coq Require Import List. Import ListNotations.

(** zred_color.py:56-91 for the rows of a catalog: the redshift columns of a row depend on the row only (C48_bulk_rows);
    the samples of the redshift (zred_color.py:219-234, utilities.py:912) also on numpy's global generator.
    [Row], [Val], [Samp] and [Gen]: rows of the input, redshift columns, samples and states of the generator. *)
Record zcalc (Row Val Samp Gen : Type) := mkZcalc { zc_row : Row -> res Val; zc_samp : Row -> Gen -> Samp * Gen }.
Arguments zc_row {_ _ _ _}. Arguments zc_samp {_ _ _ _}.

Section Run.
Context {Row Val Samp Gen : Type} (Z : zcalc Row Val Samp Gen).

(** zred_runner.py:142: the rows of one worker, one after the other *)
Fixpoint chunk_rows (rs : list Row) (g : Gen) : res (list (Val * Samp) * Gen) :=
  match rs with
  | [] => Ok ([], g)
  | r :: t => do v <- zc_row Z r;
      let '(s, g1) := zc_samp Z r g in
      do p <- chunk_rows t g1; Ok ((v, s) :: fst p, snd p)
  end.
(** zred_runner.py:137-138: fitsio.read of the rows of the range *)
Definition rows_of (lo hi : nat) (rows : list Row) : list Row := firstn (hi - lo) (skipn lo rows).
(** zred_runner.py:83-85, 102-149: the workers are forked, so every process starts from the generator of the parent; range
    number k is worked on by process [sched k].  An exception of a worker is raised by the map. *)
Fixpoint work (rows : list Row) (sched : nat -> nat) (k : nat) (st : nat -> Gen) (cs : list (nat * nat)) :
  res (list ((nat * nat) * list (Val * Samp))) :=
  match cs with
  | [] => Ok []
  | (lo, hi) :: t =>
      do p <- chunk_rows (rows_of lo hi rows) (st (sched k));
      do r <- work rows sched (S k) (fun q => if Nat.eqb q (sched k) then snd p else st q) t;
      Ok (((lo, hi), fst p) :: r)
  end.
(** numpy assignment to a slice: the lengths must agree, a single value is repeated *)
Definition put {A} (lo hi : nat) (vals out : list A) : res (list A) :=
  let n := Nat.min hi (length out) - lo in
  if Nat.eqb (length vals) n then Ok (firstn lo out ++ vals ++ skipn (lo + n) out)
  else match vals with
  | [v] => Ok (firstn lo out ++ repeat v n ++ skipn (lo + n) out)
  | _ => Err ValueError
  end.
(** zred_runner.py:89-98; the nine columns are assigned together *)
Fixpoint store (rv : list ((nat * nat) * list (Val * Samp))) (out : list (Val * Samp)) : res (list (Val * Samp)) :=
  match rv with
  | [] => Ok out
  | ((lo, hi), v) :: t => do o <- put lo hi v out; store t o
  end.
(** zred_runner.py:44-100; [z0] is a row of zeros.  nperproc None: computed from the number of processes. *)
Definition run_catalog (rows : list Row) (nperproc : option nat) (nproc maxperproc : nat) (sched : nat -> nat) (g0 : Gen) (z0 : Val * Samp) :
  res (list (Val * Samp)) :=
  do cs <- match nperproc with
           | None => zred_run_chunks (length rows) nproc maxperproc
           | Some n => zred_chunks (length rows) n
           end;
  do rv <- work rows sched 0 (fun _ => g0) cs;
  store rv (repeat z0 (length rows)).
End Run.
