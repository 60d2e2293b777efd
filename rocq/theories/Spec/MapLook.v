(** Specification for C145. *)
From Coq Require Import QArith.
From Verif.Base Require Import Py.
From Verif.Model Require Import MapLook.
From Coq Require Import List. Import ListNotations.
Local Open Scope Q_scope.

Definition on_sky (dec : Q) : Prop := -(90) <= dec /\ dec <= 90.
(** every position on the sky has a pixel, others have none *)
Definition good_sky (pix : sky) : Prop :=
  (forall ra dec, on_sky dec -> exists p, pix ra dec = Ok p) /\ (forall ra dec, ~ on_sky dec -> pix ra dec = Err ValueError).
(** the depth at a position: that of the map's pixel, else unseen *)
Definition depth_at (pix : sky) (m : hmap dval) (ra dec : Q) (o : Q * Q * Q) : Prop :=
  (on_sky dec /\ exists p d, pix ra dec = Ok p /\ m p = Some d /\ o = (d_limmag d, d_exptime d, d_m50 d)) \/
  (o = (unseen, unseen, unseen) /\ (~ on_sky dec \/ exists p, pix ra dec = Ok p /\ m p = None)).
