(** What the volume-limit and area properties speak about. *)
From Coq Require Import QArith Sorting.Sorted.
From Verif.Base Require Import Py.
Local Open Scope nat_scope.

(** a band: magnitude of the threshold galaxy per redshift bin, and the depth of the pixel (none: 0) *)
Definition band : Type := list Q * option Q.
Definition bdepth (b : band) : Q := match snd b with Some x => x | None => 0%Q end.
(** the threshold galaxy in redshift bin k is at least as bright as the depth *)
Definition complete_at (b : band) (k : nat) : Prop := exists lm, nth_error (fst b) k = Some lm /\ (lm <= bdepth b)%Q.
(** magnitudes rise with redshift *)
Definition good_band (n : nat) (b : band) : Prop := List.length (fst b) = n /\ StronglySorted Qlt (fst b).
(** the area of the pixels passing a test *)
Definition area_of (pixsize : Q) (p : Q -> bool) (pix : list (Q * Q)) : Q :=
  (pixsize * Qsum (map snd (filter (fun q => p (fst q)) pix)))%Q.
Definition total_area (pixsize : Q) (pix : list (Q * Q)) : Q := (pixsize * Qsum (map snd pix))%Q.
Definition good_pixels (pix : list (Q * Q)) : Prop := forall p, In p pix -> (0 < snd p)%Q.
