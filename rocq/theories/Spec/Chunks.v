From Verif.Base Require Import Py.
From Verif.Model Require Import Chunks.
(** The indices lo, lo+1, ..., hi-1 of a range, and all indices of a list of ranges in order. *)
Definition indices_of (r : nat * nat) : list nat := seq (fst r) (snd r - fst r).
Definition all_indices (rs : list (nat * nat)) : list nat := List.concat (map indices_of rs).

(** ** Sky splitting *)
(** [dpix t]: the pixel, at the resolution of the configuration, that contains galaxy-table pixel [t]. *)
Definition in_region (g : split_geo) (dpix : Z -> Z) (t : Z) : bool :=
  match sg_hpix g with [] => true | hs => existsb (Z.eqb (dpix t)) hs end.
(** the table pixels of the requested region *)
Definition region_pixels (g : split_geo) (dpix : Z -> Z) : list Z := filter (in_region g dpix) (sg_tab g).
(** number of distinct pixels of resolution [ns] that the region occupies *)
Definition n_occupied (g : split_geo) (dpix : Z -> Z) (ns : nat) : nat :=
  List.length (nodup Z.eq_dec (map (sg_up g ns) (region_pixels g dpix))).

(** The coarsest resolution and the allowed ones: it, and its doublings up to the first one that is at
    least as fine as the galaxy table. *)
Definition coarsest (g : split_geo) (dnside min_nside : nat) : nat :=
  match sg_hpix g with [] => min_nside | _ => Nat.max dnside min_nside end.
Definition allowed (g : split_geo) (n0 ns : nat) : Prop :=
  exists k, ns = n0 * 2 ^ k /\ (k = 0 \/ n0 * 2 ^ (k - 1) < sg_tabnside g).

(** What is assumed of the HEALPix library, at each resolution [ns] of a set [P]: pixels are numbered
    0..npix-1, and the configured-resolution pixel around a pixel is that of the table pixels inside it. *)
Record healpix_ok (g : split_geo) (dpix : Z -> Z) (P : nat -> Prop) : Prop := {
  hp_range : forall ns t, P ns -> In t (sg_tab g) ->
               (0 <= sg_up g ns t < Z.of_nat (sg_npix g ns))%Z;
  hp_nested : forall ns t, P ns -> sg_hpix g <> [] -> In t (sg_tab g) ->
               sg_par g ns (sg_up g ns t) = dpix t }.
