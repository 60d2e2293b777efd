(** Specification for C181: how much of a galaxy the clusters of a catalog have in total. *)
From Coq Require Import QArith ZArith.
From Verif.Base Require Import Py.
From Verif.Model Require Import Runner Consolidate.
From Coq Require Import List. Import ListNotations.

(** rows of a member table: the galaxy, the probability p and the free probability pfree; the share of galaxy [g] in all rows *)
Definition share_of (rows : list (nat * Q * Q)) (g : nat) : Q :=
  Qsum (map (fun r => if Nat.eqb (fst (fst r)) g then (snd (fst r) * snd r)%Q else 0%Q) rows).
Definition run_rows (ms : list mrec) : list (nat * Q * Q) := map (fun m => (mr_gal m, mr_p m, mr_pfree m)) ms.
(** the same rows in a file; [dec]: the cells galaxy, p and pfree of a row *)
Definition file_rows (dec : Z -> nat * Q * Q) (ms : list member) : list (nat * Q * Q) := map (fun m => dec (m_data m)) ms.

(** What processing a cluster may give: p is a probability, and the galaxies that count as members (pmem above 0.01; or p above 0.01 and
    inside the radius and luminosity of members) are masked, that is, inside the mask radius and brighter than the mask limit. *)
Definition proper (f : flags) (proc : cl -> list Q -> outcome) : Prop :=
  forall c pf o, In o (oc_nbrs (proc c pf)) -> (0 <= no_p o <= 1)%Q /\
    ((if fl_memcuts f then (1#100 < no_p o)%Q /\ no_memcut o = true else (1#100 < no_pmem o)%Q) -> no_mask o = true).
(** The members in a file of a tile are those a run of that kind records. *)
Definition of_a_run (dec : Z -> nat * Q * Q) (x : pfile) : Prop :=
  exists f proc cs mn cat ms, fl_perc f = true /\ proper f proc /\ Forall (fun c => NoDup (cl_nb c)) cs /\
    postprocess mn (run_loop f proc cs) = Ok (cat, Some ms) /\
    Forall2 (fun m r => m_id m = mr_id r /\ dec (m_data m) = (mr_gal r, mr_p r, mr_pfree r)) (f_mem x) ms.
(** a file has galaxy [g] among its members *)
Definition has_galaxy (dec : Z -> nat * Q * Q) (g : nat) (x : pfile) : bool :=
  existsb (fun m => Nat.eqb (fst (fst (dec (m_data m)))) g) (f_mem x).
