(** What the consolidation properties speak about. *)
From Coq Require Import QArith Sorting.Sorted Permutation.
From Verif.Base Require Import Py.
From Verif.Model Require Import Consolidate.
Local Open Scope nat_scope.

(** the clusters of a file that survive the pixel cut *)
Definition kept (q : pcut) (f : pfile) : list cluster := filter (in_pixel_cut q (f_hpix f)) (f_cat f).
(** ids are unique within a file, and every surviving cluster has a member *)
Definition file_ok (q : pcut) (f : pfile) : Prop :=
  NoDup (map c_id (f_cat f)) /\ forall c, In c (kept q f) -> exists m, In m (f_mem f) /\ m_id m = c_id c.
(** the members of the clusters with a property *)
Definition mem_of (cs : list cluster) (ms : list member) : list member :=
  filter (fun m => existsb (Z.eqb (m_id m)) (map c_id cs)) ms.
(** [num i old]: the new id of the cluster of file number i whose id there is old *)
Definition numbering := nat -> Z -> Z.
Section From.
  Variables (q : pcut) (p : cluster -> bool) (num : numbering).
  (** the surviving clusters with property p, in file order, with their new ids *)
  Fixpoint cats_from (i : nat) (fs : list pfile) : list cluster :=
    match fs with [] => [] | f :: t => map (fun c => cwith c (num i (c_id c))) (filter p (kept q f)) ++ cats_from (S i) t end.
  (** their members, in file order, each carrying the new id of its cluster *)
  Fixpoint mems_from (i : nat) (fs : list pfile) : list member :=
    match fs with [] => [] | f :: t => map (fun m => mwith m (num i (m_id m))) (mem_of (filter p (kept q f)) (f_mem f)) ++ mems_from (S i) t end.
End From.
Definition all_kept : cluster -> bool := fun _ => true.
(** decreasing likelihood *)
Definition by_like (cat : list cluster) : Prop := StronglySorted (fun a b => c_like b <= c_like a)%Q cat.
(** the task's selection, each cluster with its own scale value *)
Definition passes (sel : bool) (zmax : Z -> Q) (minlambda : Q) (c : cluster) : bool :=
  (Qlt_bool (c_z c) (zmax (c_pos c)) && Qlt_bool minlambda (if sel then c_lambda c / c_scale c else c_lambda c))%bool.
