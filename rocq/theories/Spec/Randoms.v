(** What the properties of random points speak about. *)
From Coq Require Import QArith.
From Verif.Base Require Import Py.
From Verif.Model Require Import Randoms.
Local Open Scope nat_scope.

Definition r_pos (r : row) : pos := snd (fst r).
Definition r_no (r : row) : nat := fst (fst r).
Definition r_z (r : row) : Q := d_z (snd r).
(** drawn arrays of one pass: as many uniform numbers as positions, and numpy draws one cluster per surviving position,
    so at most that many *)
Definition round_ok (mask : maskfn) (r : round) : Prop :=
  List.length (rd_u r) = List.length (rd_pos r) /\
  List.length (rd_draw r) = List.length (np_where (fun uf : Q * (Q * Q) => Qlt_bool (fst uf) (snd (snd uf))) (combine (rd_u r) (map mask (rd_pos r)))) /\
  (forall u, In u (rd_u r) -> (0 <= u /\ u < 1)%Q).
(** the point was drawn in some pass and survived the good-fraction test *)
Definition from_round (mask : maskfn) (r : round) (p : pos) (d : drawn) : Prop :=
  (exists u, In (u, p) (combine (rd_u r) (rd_pos r)) /\ (u < snd (mask p))%Q) /\ In d (rd_draw r).
(** rows of a cluster *)
Definition of_cluster (i : Z) (l : list rpoint) : list rpoint := filter (fun p => Z.eqb (p_id p) i) l.
Definition in_zrange (c : wconf) (p : rpoint) : bool := (Qlt_bool (w_z0 c) (p_z p) && Qlt_bool (p_z p) (w_z1 c))%bool.
