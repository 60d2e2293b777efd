(** What a correct pixelised catalog is. *)
From Verif.Base Require Import Py.
From Verif.Model Require Import Maker.

(** The galaxies stored in pixel [p]; no file means no galaxies. *)
Definition stored (s : st) (p : nat) : list gal :=
  match files s p with Some l => l | None => [] end.
(** All stored galaxies, pixel by pixel. *)
Definition all_stored (e : env) (s : st) : list gal := List.concat (map (stored s) (seq 0 (npix e))).
(** The input galaxies that belong in pixel [p]. *)
Definition belongs (e : env) (p : nat) (gals : list gal) : list gal :=
  filter (fun g => inmask e (gdat g) && Nat.eqb (pixof e (gdat g)) p) gals.
(** A chunk is acceptable: every row valid, and ids distinct unless they will be generated. *)
Definition acceptable (e : env) (c : list gal) : Prop :=
  (forall g, In g c -> gok g = true) /\ (genids e = true \/ NoDup (map gid c)).
(** [1; 2; ...; n] *)
Definition one_to (n : nat) : list Z := map (fun i => Z.of_nat i) (seq 1 n).
