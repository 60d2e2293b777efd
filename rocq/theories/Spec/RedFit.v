(** What the fit of the redMaGiC cuts promises. *)
From Coq Require Import Reals Lra.
From Verif.Base Require Import Py.
From Verif.Model Require Import BkgGen Depth RedFit.
From Verif.Model Require Redmagic.
From Coq Require Import List. Import ListNotations.
Local Open Scope R_scope.

(** a galaxy of the catalog as the fit sees it, [zcal] its calibration redshift *)
Definition seen (m : Redmagic.mode) (zcal : R) (g : Redmagic.gal) : fgal :=
  mkFG (Redmagic.g_zunc g) (Redmagic.g_zunc_e g) (Redmagic.g_chisq g) (Redmagic.g_refmag g) zcal (hd 0 (Redmagic.g_samp g))
       (Redmagic.zmax_at m (Redmagic.g_ra g) (Redmagic.g_dec g)).
(** bright enough at its raw redshift to be considered *)
Definition bright (mstar : R -> R) (eta lcush : R) (g : Redmagic.gal) : bool :=
  Rltb (Redmagic.g_refmag g) (mstar (Redmagic.g_zunc g) - 25/10 * log10 (Rmax (1/10) (eta - lcush))).
(** inside of the nodes *)
Definition inside (nodes : list R) (z : R) : Prop := exists lo hi, In lo nodes /\ In hi nodes /\ lo <= z <= hi.
(** [splfix] (the spline the selection uses, with extrapolation fixed) is [spl] inside of the nodes *)
Definition agrees (spl splfix : list R -> list R -> R -> R) : Prop := forall nodes v z, inside nodes z -> splfix nodes v z = spl nodes v z.
(** the mode that the selection makes of a record *)
Definition mode_of (splfix : list R -> list R -> R -> R) (k : fconf) (r : recorded) (z0 z1 zc buf lc : R) (run apply : bool) (vlim : R -> R -> R) : Redmagic.mode :=
  {| Redmagic.m_z0 := z0; Redmagic.m_z1 := z1; Redmagic.m_zcush := zc; Redmagic.m_buf := buf; Redmagic.m_lcush := lc; Redmagic.m_maxchi := k_maxchi k;
     Redmagic.m_etamin := k_etamin k; Redmagic.m_cmax := splfix (k_nodes k) (r_cmax r); Redmagic.m_run := run; Redmagic.m_apply := apply;
     Redmagic.m_bias := splfix (k_corr k) (r_bias r); Redmagic.m_eratio := splfix (k_corr k) (r_eratio r); Redmagic.m_vlim := vlim |}.
(** the samples that the cost of cuts is computed from, with corrections or without *)
Definition counted (L : libs) (k : fconf) (cval : list R) (corr : option (list R * list R)) (gals : list fgal) : list R :=
  map (fun g => f_samp g - match corr with Some (b, _) => l_spl L (k_corr k) b (f_z g) | None => 0 end)
      (filter (fun g => let zm := f_z g - match corr with Some (b, _) => l_spl L (k_corr k) b (f_z g) | None => 0 end in
                        Rltb (f_chisq g) (Rmin (Rmax (l_spl L (k_nodes k) cval (f_z g)) (1/10)) (k_maxchi k)) &&
                        Rltb (f_mag g) (k_mstar k zm - 25/10 * log10 (k_etamin k)) && Rltb zm (f_zmax g)) gals).
