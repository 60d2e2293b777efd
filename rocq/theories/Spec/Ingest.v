(** Specification for C161 and C162. *)
From Verif.Base Require Import Py.
From Verif.Model Require Import Maker Galfile Ingest.
From Verif.Spec Require Import Galfile.
From Coq Require Import List Permutation. Import ListNotations.

(** what a maker relies on: healpix returns a valid pixel number and the histogram lists each row once *)
Definition sound (e : env) : Prop := (forall d, pixof e d < npix e) /\ (forall l, Permutation (order e l) l).
(** the galaxies of the calls that returned *)
Fixpoint taken (cs : list (list gal)) (rs : list (res unit)) : list gal :=
  match cs, rs with
  | c :: cs', Ok _ :: rs' => c ++ taken cs' rs'
  | _ :: cs', Err _ :: rs' => taken cs' rs'
  | _, _ => []
  end.
(** a galaxy the request asks for: inside the mask of the maker, and in the requested region of the sky *)
Definition wanted (e : env) (ph : phot) (g : geo) (a : args) (x : gal) : bool :=
  inmask e (gdat x) &&
  (if Nat.eqb (List.length (a_hpix a)) 0 || Nat.eqb (a_nside a) 0 then true
   else if Qlt_bool 0 (a_border a) then is_in (pix512 g (ph_pos ph (gdat x))) (cutpix g)
   else is_in (up g (Z.of_nat (pixof e (gdat x)))) (a_hpix a)).
(** geometric fact: a galaxy inside the bordered region lies in a pixel inside the requested pixel or within the border *)
Definition border_sound (e : env) (ph : phot) (g : geo) (a : args) : Prop :=
  forall d, In (pix512 g (ph_pos ph d)) (cutpix g) ->
    In (up g (Z.of_nat (pixof e d))) (a_hpix a) \/ In (Z.of_nat (pixof e d)) (bpix g).
(** the pixels of a run for redshifts: all of them, those inside the configured pixels, or also those within the border *)
Definition in_run (g : geo) (a : args) (x : entry) : bool :=
  if Nat.eqb (List.length (a_hpix a)) 0 || Nat.eqb (a_nside a) 0 then true
  else is_in (up g (ehpix x)) (a_hpix a) || (Qlt_bool 0 (a_border a) && is_in (ehpix x) (bpix g)).
(** a galaxy table as the maker writes it *)
Definition regular (npt : Z) (nt : nat) (tab : list entry) : Prop :=
  0 < nt /\ NoDup (map ehpix tab) /\ forall x, In x tab -> (0 <= ehpix x < npt)%Z /\ List.length (erows x) = engals x.
(** a row with the redshift computed from it *)
Definition own_zred (calc : row -> res zrow) (o : orow) (r : row) : Prop := fst o = r /\ exists z, snd o = Some z /\ calc r = Ok z.
