(** Seeds from spectra: calibration/selectspecseeds.py:33-116.  The seeds have the columns that the first pass reads
    (Model/FirstPass.v).  The positional matching (galaxy.py:441-474, smatch) is a parameter: the pairs (position of
    the spectrum, position of the galaxy), in the order in which they are returned.
    Simplified: columns are exact rationals, magnitudes opaque cells. *)
From Coq Require Import QArith.
From Verif.Base Require Import Py.
From Verif.Model Require Import FirstPass.
Local Open Scope nat_scope.
Local Open Scope list_scope.

Record spec := mkSpec { sp_ra : Q; sp_dec : Q; sp_z : Q; sp_zerr : Q }.
(** a galaxy; with its photometric redshift columns when they were read *)
Record pgal := mkPG { pg_ra : Q; pg_dec : Q; pg_mag : Z; pg_refmag : Q; pg_ebv : Q; pg_zred : Q; pg_zred_e : Q; pg_chisq : Q }.
Definition matcher := list (Q * Q) -> list (Q * Q) -> list (nat * nat).

(** selectspecseeds.py:69-74 *)
Definition good_spec (zlo zhi maxerr : Q) (s : spec) : bool :=
  Qle_bool zlo (sp_z s) && Qle_bool (sp_z s) zhi && Qlt_bool (sp_zerr s) maxerr.
(** selectspecseeds.py:82-86 *)
Definition good_gal (has_zreds : bool) (g : pgal) : bool :=
  if has_zreds then Qlt_bool 0 (pg_zred g) else Qlt_bool 0 (pg_refmag g).
(** selectspecseeds.py:88-114 *)
Definition seed_of (has_zreds : bool) (s : spec) (g : pgal) : seed :=
  mkSeed (pg_ra g) (pg_dec g) (pg_mag g) (pg_refmag g)
    (if has_zreds then pg_zred g else (-1)%Q) (if has_zreds then pg_zred_e g else (-1)%Q) (if has_zreds then pg_chisq g else (-1)%Q)
    (pg_ebv g) (sp_z s).
(** selectspecseeds.py:49-116: the rows of the seed file *)
Definition select_seeds (zlo zhi maxerr : Q) (has_zreds : bool) (m : matcher) (specs : list spec) (gals : list pgal) : res (list seed) :=
  let specs := filter (good_spec zlo zhi maxerr) specs in
  let pairs := m (map (fun s => (sp_ra s, sp_dec s)) specs) (map (fun g => (pg_ra g, pg_dec g)) gals) in
  do gals <- np_take gals (map snd pairs);
  do specs <- np_take specs (map fst pairs);
  let use := np_where (good_gal has_zreds) gals in
  do g <- np_take gals use;
  do s <- np_take specs use;
  Ok (map (fun p => seed_of has_zreds (fst p) (snd p)) (combine s g)).
