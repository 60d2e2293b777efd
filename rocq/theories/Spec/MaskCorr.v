(** What the mask correction should be: the fraction of the expected members that is not detected. *)
From Coq Require Import Reals Lra.
From Verif.Base Require Import Py.
From Verif.Model Require Import BkgGen Solver Richness MaskCorr.
From Verif.Spec Require Solver.
Local Open Scope R_scope.

Fixpoint total_of (w : mgal -> R) (gs : list mgal) : R :=
  match gs with [] => 0 | g :: t => w g + total_of w t end.

(** The depth that applies: the survey limit when the mask galaxies carry no completeness model (w < 0, or no
    50% magnitude at all), else the 50% magnitude at the galaxy. *)
Definition survey_limit_applies (gs : list mgal) : Prop :=
  exists g0 t, gs = g0 :: t /\ (m_w g0 < 0 \/ (m_w g0 = 0 /\ forall g, In g gs -> m_m50 g = 0)).
Definition local_limit_applies (gs : list mgal) : Prop :=
  exists g0 t, gs = g0 :: t /\ m_w g0 = 0 /\ exists g, In g gs /\ 0 < m_m50 g.
Definition limit_rule (limmag : R) (gs : list mgal) (lim : mgal -> R) : Prop :=
  (survey_limit_applies gs /\ forall g, lim g = limmag) \/ (local_limit_applies gs /\ forall g, lim g = m_m50 g).

(** Probability of seeing a mask galaxy: none where the survey is masked. *)
Definition seen (erf : R -> R) (obs : mgal -> R -> R * R) (lim : mgal -> R) (mstar maxmag : R) (g : mgal) : R :=
  if m_mark g then theta_i erf (fst (obs g (m_m g + mstar))) (snd (obs g (m_m g + mstar))) maxmag (lim g) else 0.

(** Weight of a mask galaxy at radius [rad], smoothed by rsig > 0. *)
Definition inside (erf : R -> R) (rsig rad : R) (g : mgal) : R := 1/2 + 1/2 * erf ((rad - m_r g) / (sqrt 2 * rsig)).

Definition detected (erf : R -> R) obs lim (mstar maxmag rsig rad : R) (gs : list mgal) : R :=
  total_of (fun g => seen erf obs lim mstar maxmag g * inside erf rsig rad g) gs.
(** the galaxies brighter than the reference luminosity *)
Definition expected (erf : R -> R) (rsig bright rad : R) (gs : list mgal) : R :=
  total_of (fun g => if Rlt_dec (m_m g) bright then inside erf rsig rad g else 0) gs.

Definition erf_bounded (erf : R -> R) : Prop := forall x, -1 <= erf x <= 1.

(** The first mask galaxy has a depth, and 50% magnitudes are not negative. *)
Definition depth_known (gs : list mgal) : Prop :=
  (exists g0 t, gs = g0 :: t /\ 0 < m_limmag g0) /\ forall g, In g gs -> 0 <= m_m50 g.

(** Mask galaxies within the radius of the cluster; those of them that the survey misses. *)
Definition within (rlam : R) (g : mgal) : Prop := m_r g < rlam.
Definition missed (limmag mstar : R) (g : mgal) : Prop := limmag < mstar + m_m g \/ m_mark g = false.

(** Probability that a mask galaxy is a member, were it seen; galaxies at or beyond the limit take the background
    just above the limit. *)
Definition member_prob (bkg : R -> R -> R -> bval) (limmag mstar lam rlam : R) (g : mgal) : R :=
  pout lam (m_cwt g * (Solver.profile_norm rlam * m_nfw g) * m_lumwt g)
    (bkg (m_r g) (m_chisq g) (if Rle_dec limmag (mstar + m_m g) then limmag - 1/100 else mstar + m_m g)).
(** Number of mask galaxies within the radius, and the sum of member probabilities of the missed ones. *)
Definition n_within (rlam : R) (gs : list mgal) : R := total_of (fun g => if Rlt_dec (m_r g) rlam then 1 else 0) gs.
Definition p_missed (bkg : R -> R -> R -> bval) (limmag mstar lam rlam : R) (gs : list mgal) : R :=
  total_of (fun g => if Rlt_dec (m_r g) rlam then
                       if Rlt_dec limmag (mstar + m_m g) then member_prob bkg limmag mstar lam rlam g
                       else if m_mark g then 0 else member_prob bkg limmag mstar lam rlam g
                     else 0) gs.
Definition bkg_ok (bkg : R -> R -> R -> bval) (limmag mstar lam rlam : R) (g : mgal) : Prop :=
  0 <= m_cwt g /\ 0 <= m_nfw g /\ 0 <= m_lumwt g /\ forall x y z b, bkg x y z = Bval b -> 0 < b.

(** The mask fraction at radius r that the four coefficients (highest power first) stand for. *)
Definition mask_fraction (cp : R * R * R * R) (r : R) : R :=
  let '(c0, c1, c2, c3) := cp in c0 * r ^ 3 + c1 * r ^ 2 + c2 * r + c3.
Fixpoint sumsq (l : list R) : R := match l with [] => 0 | x :: t => x ^ 2 + sumsq t end.
