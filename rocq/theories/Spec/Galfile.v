(** Which galaxies a region request asks for. *)
From Verif.Base Require Import Py.
From Verif.Model Require Import Galfile.

(** A consistent table: the counts are right, and every zred file has one record per galaxy. *)
Definition consistent (tab : list entry) : Prop :=
  forall e, In e tab -> List.length (erows e) = engals e /\
    forall z, ezfile e = Some z -> List.length z = engals e.

(** Galaxy rows of one file, each with its own zred record. *)
Definition with_zred (usez : bool) (e : entry) : list orow :=
  if usez then match ezfile e with Some z => combine (erows e) (map Some z) | None => [] end
  else map (fun r => (r, None)) (erows e).

(** All readable galaxies (with zreds requested, files without zreds are not readable), in table order. *)
Definition everything (usez : bool) (tab : list entry) : list (entry * orow) :=
  List.concat (map (fun e => map (pair e) (with_zred usez e)) tab).

Definition is_in (x : Z) (l : list Z) : bool := existsb (Z.eqb x) l.

(** The request: no pixel given -> everything; pixels -> galaxies whose file lies in one of them; one
    pixel and a border -> galaxies whose position lies in the bordered region. *)
Definition requested (g : geo) (a : args) (x : entry * orow) : bool :=
  if Nat.eqb (List.length (a_hpix a)) 0 || Nat.eqb (a_nside a) 0 then true
  else if Qlt_bool 0 (a_border a) then is_in (pix512 g (rpos (fst (snd x)))) (cutpix g)
  else is_in (up g (ehpix (fst x))) (a_hpix a).

(** Geometric fact about healpix queries: a galaxy inside the bordered region lies in a table pixel that is
    inside the requested pixel or within the border. *)
Definition border_covered (g : geo) (tab : list entry) (a : args) : Prop :=
  forall e r, In e tab -> In r (erows e) -> In (pix512 g (rpos r)) (cutpix g) ->
    In (up g (ehpix e)) (a_hpix a) \/ In (ehpix e) (bpix g).

(** The same request, reading through a temporary file or not. *)
Definition set_temp (a : args) (b : bool) : args :=
  mkA (a_nside a) (a_hpix a) (a_border a) (a_zred a) b (a_magrange a) (a_chimax a).

(** A request the documentation allows, of a table of resolution [nt] (healpix queries return each pixel
    once). *)
Definition valid_request (g : geo) (nt : nat) (a : args) : Prop :=
  (0 <= a_border a)%Q /\ (forall h, In h (a_hpix a) -> (0 <= h < npix_of g)%Z) /\ NoDup (a_hpix a) /\
  ((0 < a_border a)%Q -> List.length (a_hpix a) <= 1) /\ a_nside a <= nt /\ NoDup (cutpix g).

(** The cuts of a read through a temporary file: strictly inside the magnitude range and, when zreds are
    read, strictly below the largest chi-squared. *)
Definition within_cuts (a : args) (o : orow) : Prop :=
  (fst (a_magrange a) < rmag (fst o) < snd (a_magrange a))%Q /\
  (a_zred a = true -> exists z, snd o = Some z /\ (zchi z < a_chimax a)%Q).
