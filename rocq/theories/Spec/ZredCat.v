(** Specification for C142. *)
From Verif.Base Require Import Py.
From Verif.Model Require Import ZredCat.
From Coq Require Import List. Import ListNotations.

(** the draws of all rows from one generator, in the order of the catalog *)
Fixpoint draws {Row Samp Gen : Type} (samp : Row -> Gen -> Samp * Gen) (rows : list Row) (g : Gen) : list Samp :=
  match rows with [] => [] | r :: t => fst (samp r g) :: draws samp t (snd (samp r g)) end.
(** every row of the output belongs to the row of the input in the same place *)
Definition rowwise {Row Val Samp : Type} (f : Row -> res Val) (rows : list Row) (out : list (Val * Samp)) : Prop :=
  Forall2 (fun r o => f r = Ok (fst o)) rows out.
(** a chunk size that can be used *)
Definition usable (nperproc : option nat) (ngal nproc maxperproc : nat) : Prop :=
  match nperproc with Some n => 0 < n | None => 0 < nproc <= ngal /\ 0 < maxperproc end.
