(** The costs that are minimised in the calibration of the centering: calibration/centeringcal.py:56-79 (WcenFgFitter.__call__),
    141-172 (WcenCFitter.__call__), 224-248 (WcenCwFitter.__call__); and the normal curve through a histogram, utilities.py:69-90
    (gaussFunction), 941-1011 (histoGauss).  Over the reals; a value that is not a number, or infinite (the logarithm of 0 or less, a
    division by 0), is None: compared with any number it is never the smaller one.  Simplified: the minimiser (scipy.optimize.fmin,
    curve_fit) and the histogram are inputs. *)
From Coq Require Import Reals Lra.
From Verif.Base Require Import Py.
From Coq Require Import Lia List. Import ListNotations.
Local Open Scope R_scope.

(** np.log with a minus sign *)
Definition neglog (f : option R) : option R := match f with Some v => if Rlt_dec 0 v then Some (- ln v) else None | None => None end.
(** np.sum *)
Fixpoint osum (l : list (option R)) : option R :=
  match l with [] => Some 0 | x :: t => match x, osum t with Some a, Some b => Some (a + b) | _, _ => None end end.
(** 76-77, 246: the penalty for a width below 0 *)
Definition penalty (s : R) (t : option R) : option R := match t with Some x => Some (if Rlt_dec s 0 then x + 1000 else x) | None => None end.
(** 73, 163, 241: the normal density; for width 0 it is not a number *)
Definition normal (x m s : R) : option R :=
  if Req_EM_T s 0 then None else Some (1 / (sqrt (2 * PI) * s) * exp (- (1 / 2) * (x - m) ^ 2 / s ^ 2)).

(** 56-79; a cluster: w and the scale of its width *)
Record fgcl := mkFg { fg_w : R; fg_l : R }.
Definition cost_fg (m s : R) (cs : list fgcl) : option R :=
  penalty s (osum (map (fun c => neglog (normal (ln (fg_w c)) m (s * fg_l c))) cs)).

(** 141-172; a cluster: p_cen, p_sat, mstar, ln of the scaled richness, magnitude, weight of its chi-squared, density of the brightest
    satellite, background *)
Record ccl := mkCc { c_pcen : R; c_psat : R; c_mstar : R; c_lam : R; c_mag : R; c_cwt : R; c_phi1 : R; c_bkg : R }.
(** 163-167 *)
Definition rho (d0 d1 s : R) (c : ccl) : R :=
  match normal (c_mag c) (c_mstar c + d0 + d1 * c_lam c) s with
  | None => 1 / 100000
  | Some phi => let r := c_pcen c * phi * c_cwt c + c_psat c * c_phi1 c * c_cwt c + (1 - c_pcen c - c_psat c) * c_bkg c in
                if Rlt_dec r (1 / 100000) then 1 / 100000 else r
  end.
Definition cost_c (d0 d1 s : R) (cs : list ccl) : option R :=
  penalty s (osum (map (fun c => neglog (Some (rho d0 d1 s c))) cs)).

(** 224-248; a cluster: p_cen, p_sat, w, foreground density, satellite density, scale of the width *)
Record wcl := mkWl { w_pcen : R; w_psat : R; w_w : R; w_ffg : R; w_fsat : R; w_l : R }.
Definition mixed (m s : R) (c : wcl) : option R :=
  match normal (ln (w_w c)) m (s * w_l c) with
  | None => None
  | Some fcen => Some (w_pcen c * fcen + w_psat c * w_fsat c + (1 - w_pcen c - w_psat c) * w_ffg c)
  end.
Definition cost_cw (m s : R) (cs : list wcl) : option R := penalty s (osum (map (fun c => neglog (mixed m s c)) cs)).

(** ** utilities.py:69-90 *)
Definition gauss (a m s x : R) : R := a * exp (- (x - m) ^ 2 / (2 * s ^ 2)).
(** 970-1011; [fit]: the fitted parameters, None if curve_fit raises; [centers]: of the bins; [n], [med], [std]: size, median and
    standard deviation of the array.  994-995 and 998-999: the first bin above the lower end and the last one below the upper end
    must exist *)
Definition histo_gauss (fit : option (R * R * R)) (n med std : R) (centers : list R) : res (R * R * R) :=
  let '(a, m, s) := match fit with Some p => p | None => (n, med, std) end in
  let lo := m - 5 * s in let hi := m + 5 * s in
  match filter (fun x => if Rlt_dec lo x then true else false) centers with
  | [] => Err IndexError
  | _ => match filter (fun x => if Rlt_dec x hi then true else false) centers with
         | [] => Err IndexError
         | _ => Ok (a, m, s)
         end
  end.
