(** What the seeds from spectra should be. *)
From Coq Require Import QArith.
From Verif.Base Require Import Py.
From Verif.Model Require Import FirstPass SpecSeeds.

(** a spectrum in the redshift range and with a small enough error *)
Definition reliable (zlo zhi maxerr : Q) (s : spec) : Prop := (zlo <= sp_z s <= zhi)%Q /\ (sp_zerr s < maxerr)%Q.
(** what is expected of the matching library, for the distance [near]: pairs of positions within the arrays that are
    near each other; with maxmatch = 1 at most one per spectrum, and one for every spectrum that has a near galaxy *)
Definition matches (near : Q * Q -> Q * Q -> Prop) (m : matcher) : Prop :=
  forall a b,
    (forall i j, In (i, j) (m a b) -> exists p q, nth_error a i = Some p /\ nth_error b j = Some q /\ near p q) /\
    NoDup (map fst (m a b)) /\
    (forall i p q, nth_error a i = Some p -> In q b -> near p q -> exists j, In (i, j) (m a b)).
(** the seed made of a spectrum and the galaxy near it *)
Definition is_seed (has_zreds : bool) (near : Q * Q -> Q * Q -> Prop) (x : seed) (s : spec) (g : pgal) : Prop :=
  near (sp_ra s, sp_dec s) (pg_ra g, pg_dec g) /\
  sd_zspec x = sp_z s /\ sd_ra x = pg_ra g /\ sd_dec x = pg_dec g /\ sd_mag x = pg_mag g /\ sd_refmag x = pg_refmag g /\ sd_ebv x = pg_ebv g /\
  (has_zreds = true -> sd_zred x = pg_zred g /\ sd_zred_e x = pg_zred_e g /\ sd_chisq x = pg_chisq g /\ (0 < pg_zred g)%Q) /\
  (has_zreds = false -> sd_zred x = (-1)%Q /\ sd_zred_e x = (-1)%Q /\ sd_chisq x = (-1)%Q /\ (0 < pg_refmag g)%Q).
