(** Specification for C147. *)
From Coq Require Import QArith String.
From Verif.Base Require Import Py.
From Verif.Model Require Import MemPred.
From Coq Require Import List. Import ListNotations.
Local Open Scope Q_scope.

(** galaxies of the files whose pixel lies in tile [p] *)
Definition galaxies_in (tile : Z -> Z) (rows : list (Z * Z)) (p : Z) : Z := zsum (map snd (filter (fun r => Z.eqb (tile (fst r)) p) rows)).
(** [npix] tiles contain files, and [mb] is the largest memory, in megabytes, of their galaxies of [bytes] bytes each, times [border] *)
Definition largest (tile : Z -> Z) (rows : list (Z * Z)) (bytes : Z) (border : Q) (npix : Z) (mb : Q) : Prop :=
  (exists tiles, NoDup tiles /\ (forall p, In p tiles <-> exists r, In r rows /\ tile (fst r) = p) /\ npix = Z.of_nat (List.length tiles)) /\
  (forall r, In r rows -> inject_Z (galaxies_in tile rows (tile (fst r)) * bytes) / 1000000 * border <= mb) /\
  (exists r, In r rows /\ mb == inject_Z (galaxies_in tile rows (tile (fst r)) * bytes) / 1000000 * border).
Definition sane (t : table) : Prop := m_rows t <> [] /\ (forall r, In r (m_rows t) -> (0 <= snd r)%Z) /\ (forall f, In f (m_fields t) -> (0 <= snd f)%Z) /\ (0 <= m_zbytes t)%Z.
