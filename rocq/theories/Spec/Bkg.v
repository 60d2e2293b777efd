From Coq Require Import Sorting.Sorted Qabs.
From Verif.Base Require Import Py.
From Verif.Model Require Import Bkg.

(** Bin [i] of the table contains [x]: above its lower edge, up to and including the next edge (the last bin
    is [size] wide). *)
Definition in_bin (bins : list Q) (size x : Q) (i : nat) : Prop :=
  exists a, nth_error bins i = Some a /\ (a < x)%Q /\
    match nth_error bins (S i) with Some b => (x <= b)%Q | None => (x <= a + size)%Q end.
(** [x] is outside of the table. *)
Definition below (bins : list Q) (x : Q) : Prop := exists a, nth_error bins 0 = Some a /\ (x < a)%Q.
Definition at_lower_edge (bins : list Q) (x : Q) : Prop := exists a, nth_error bins 0 = Some a /\ (x == a)%Q.
Definition above (bins : list Q) (size x : Q) : Prop :=
  exists a, nth_error bins (List.length bins - 1) = Some a /\ (a + size < x)%Q.
(** increasing bins of equal size *)
Definition uniform (bins : list Q) (size : Q) : Prop :=
  (0 < size)%Q /\ forall i a b, nth_error bins i = Some a -> nth_error bins (S i) = Some b -> (b == a + size)%Q.
(** [k] is a tabulated redshift nearest to [z] *)
Definition nearest (zs : list Q) (z : Q) (k : nat) : Prop :=
  exists zk, nth_error zs k = Some zk /\
    forall k' z', nth_error zs k' = Some z' -> (Qabs (z - zk) <= Qabs (z - z'))%Q.

Definition cell2 (t : list (list Q)) (i j : nat) : option Q :=
  match nth_error t i with Some r => nth_error r j | None => None end.
Definition cell3 (t : list (list (list Q))) (i j k : nat) : option Q :=
  match nth_error t i with Some r => cell2 r j k | None => None end.

(** what a density [v] is reported as *)
Definition reported (allow0 : bool) (v : Q) (r : lval) : Prop :=
  ((v == 0)%Q /\ allow0 = false /\ r = Inf) \/ ((~ (v == 0)%Q \/ allow0 = true) /\ r = Val v).

(** A well-formed background: increasing bins, at least one (two for redshift) and a density in each cell. *)
Record bkg_ok (b : bkg) (zsize : Q) : Prop := {
  bo_z : uniform (b_z b) zsize;
  bo_z2 : 2 <= List.length (b_z b);
  bo_chi : StronglySorted Qlt (b_chi b);
  bo_mag : StronglySorted Qlt (b_mag b);
  bo_chi1 : b_chi b <> [];
  bo_mag1 : b_mag b <> [];
  bo_sizes : (0 < b_chisize b)%Q /\ (0 < b_magsize b)%Q;
  bo_sig : List.length (b_sig b) = List.length (b_mag b);
  bo_sig2 : forall pl, In pl (b_sig b) -> List.length pl = List.length (b_chi b);
  bo_sig3 : forall pl row, In pl (b_sig b) -> In row pl -> List.length row = List.length (b_z b) }.

Record zbkg_ok (b : zbkg) : Prop := {
  zo_z : StronglySorted Qlt (zb_z b);
  zo_mag : StronglySorted Qlt (zb_mag b);
  zo_z1 : zb_z b <> [];
  zo_mag1 : zb_mag b <> [];
  zo_sig : List.length (zb_sig b) = List.length (zb_mag b);
  zo_sig2 : forall row, In row (zb_sig b) -> List.length row = List.length (zb_z b) }.

Record cbkg1_ok (b : cbkg1) : Prop := {
  co_col : uniform (c1_col b) (c1_size b);
  co_mag : uniform (c1_mag b) (c1_msize b);
  co_col1 : c1_col b <> [];
  co_mag1 : c1_mag b <> [];
  co_sig : List.length (c1_sig b) = List.length (c1_mag b);
  co_sig2 : forall row, In row (c1_sig b) -> List.length row = List.length (c1_col b) }.

(** the query is outside of the table (its lower refmag edge is exclusive) *)
Definition outside (b : bkg) (chisq refmag : Q) : Prop :=
  below (b_chi b) chisq \/ above (b_chi b) (b_chisize b) chisq \/
  below (b_mag b) refmag \/ at_lower_edge (b_mag b) refmag \/ above (b_mag b) (b_magsize b) refmag.


(** like [in_bin], but the last bin is unbounded *)
Definition open_bin (bins : list Q) (x : Q) (i : nat) : Prop :=
  exists a, nth_error bins i = Some a /\ (a < x)%Q /\ (forall b, nth_error bins (S i) = Some b -> (x <= b)%Q).

(** the bin containing [x], or the first / last bin for [x] outside of the table *)
Definition nearest_bin (bins : list Q) (size x : Q) (i : nat) : Prop :=
  in_bin bins size x i
  \/ (exists a, nth_error bins 0 = Some a /\ (x <= a)%Q) /\ i = 0
  \/ above bins size x /\ i = List.length bins - 1.

Record cbkg2_ok (b : cbkg2) : Prop := {
  d_col1 : uniform (c2_col1 b) (c2_size1 b);
  d_col2 : uniform (c2_col2 b) (c2_size2 b);
  d_mag : uniform (c2_mag b) (c2_msize b);
  d_col11 : c2_col1 b <> [];
  d_col21 : c2_col2 b <> [];
  d_mag1 : c2_mag b <> [];
  d_bc : List.length (c2_bc b) = List.length (c2_mag b);
  d_bc2 : forall pl, In pl (c2_bc b) -> List.length pl = List.length (c2_col2 b);
  d_bc3 : forall pl row, In pl (c2_bc b) -> In row pl -> List.length row = List.length (c2_col1 b);
  d_n : List.length (c2_n b) = List.length (c2_mag b) }.
