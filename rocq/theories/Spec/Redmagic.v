(** What the redMaGiC selection promises. *)
From Coq Require Import String Reals Lra Sorting.Sorted.
From Verif.Base Require Import Py.
From Verif.Model Require Import BkgGen Depth Redmagic.
Local Open Scope R_scope.

(** the redshift a selected galaxy is given *)
Definition corrected (m : mode) (g : gal) : R := g_zunc g - (if m_run m then m_bias m (g_zunc g) else 0).
(** chi-squared below the mode's threshold at the galaxy's redshift, itself kept between 0.1 and the
    mode's largest *)
Definition red_enough (m : mode) (g : gal) : Prop :=
  g_chisq g < m_maxchi m /\ (g_chisq g < m_cmax m (g_zunc g) \/ g_chisq g < 1/10).
(** luminosity in units of the characteristic one, at a redshift *)
Definition luminosity (mstar : R -> R) (z refmag : R) : R := pow10 ((mstar z - refmag) / (25/10)).
(** redshift below the volume limit at the galaxy's position *)
Definition in_volume (m : mode) (g : gal) : Prop :=
  corrected m g < 0 \/ (Rabs (g_dec g) <= 90 /\ corrected m g < m_vlim m (g_ra g) (g_dec g)).
(** uncorrected redshift within the calibrated range, widened *)
Definition in_range (m : mode) (g : gal) : Prop :=
  m_z0 m - m_zcush m - m_buf m < g_zunc g < m_z1 m + m_zcush m + m_buf m.
(** the whole selection *)
Definition selected (mstar : R -> R) (m : mode) (g : gal) : Prop :=
  red_enough m g /\ m_etamin m < luminosity mstar (corrected m g) (g_refmag g) /\ in_volume m g /\ in_range m g /\
  Rmax (1/10) (m_etamin m - m_lcush m) < luminosity mstar (g_zunc g) (g_refmag g).
(** the row written for a galaxy, except its spectroscopic redshift *)
Definition row_for (mstar : R -> R) (m : mode) (g : gal) (r : redgal) : Prop :=
  r_pay r = g_pay g /\ r_ra r = g_ra g /\ r_dec r = g_dec g /\ r_refmag r = g_refmag g /\ r_chisq r = g_chisq g /\
  r_z r = corrected m g /\ r_lum r = luminosity mstar (corrected m g) (g_refmag g) /\
  r_ze r = g_zunc_e g * (if m_run m then m_eratio m (g_zunc g) else 1) /\
  r_samp r = map (fun s => s - (if m_run m && m_apply m then m_bias m (g_zunc g) else 0)) (g_samp g).
(** its spectroscopic redshift *)
Definition zspec_for (src : zsource) (g : gal) (r : redgal) : Prop :=
  match src with
  | Truth => r_zspec r = g_ztrue g
  | Column => r_zspec r = g_zspec g
  | Match specs near => r_zspec r = -1 \/ exists s, In s specs /\ s_zerr s < 1/1000 /\ r_zspec r = s_z s
  end.
(** matches are rows of the catalog searched *)
Definition source_ok (src : zsource) : Prop :=
  match src with Match _ near => forall l ra dec i, near l ra dec = Some i -> (i < length l)%nat | _ => True end.
(** the rows selected from a list of galaxies *)
Definition selection_of (mstar : R -> R) (src : zsource) (m : mode) (gals : list gal) (out : list redgal) (gd : list nat) : Prop :=
  StronglySorted lt gd /\ length out = length gd /\
  (forall i, In i gd <-> exists g, nth_error gals i = Some g /\ selected mstar m g) /\
  (forall k i, nth_error gd k = Some i -> exists g r, nth_error gals i = Some g /\ nth_error out k = Some r /\
     row_for mstar m g r /\ zspec_for src g r).
