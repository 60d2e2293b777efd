(** The mask correction: mask.py:97-116 (select_maskgals_sample), 228-246 (the radial functions of gen_maskgals),
    281-327 (calc_maskcorr), and its use in cluster.py:526-537, 565-630 (calc_lambdacerr) and
    run_randoms_zmask.py:137-142.
    Exact reals instead of float32/float64; erf, the random draws and the magnitude errors are parameters. *)
From Coq Require Import Reals Lra.
From Verif.Base Require Import Py.
From Verif.Model Require Import BkgGen Solver Richness.
Local Open Scope R_scope.

(** One mask galaxy: position, magnitude relative to mstar, the weights used by the error (cwt, nfw, lumwt,
    chisq), survey values at its position (mark, limmag, w, m50) and the radial columns (theta_r, nin). *)
Record mgal := mkM { m_r : R; m_m : R; m_cwt : R; m_nfw : R; m_lumwt : R; m_chisq : R;
                     m_mark : bool; m_limmag : R; m_w : R; m_m50 : R; m_theta : list R; m_nin : list R }.
Definition set_radial (g : mgal) (th nin : list R) : mgal :=
  mkM (m_r g) (m_m g) (m_cwt g) (m_nfw g) (m_lumwt g) (m_chisq g) (m_mark g) (m_limmag g) (m_w g) (m_m50 g) th nin.

Definition Rleb (x y : R) : bool := if Rle_dec x y then true else false.
(** mask.py:239-242 *)
Definition theta_rad (erf : R -> R) (rsig rad r : R) : R :=
  if Rleb rsig 0 then 1 else 1/2 + 1/2 * erf ((rad - r) / (sqrt 2 * rsig)).

(** mask.py:245-246; [bright] is -2.5 log10(lval_reference) *)
Definition nin_of (erf : R -> R) (rsig bright rad : R) (sample : list mgal) : R :=
  lsum (map (fun g => theta_rad erf rsig rad (m_r g)) (filter (fun g => Rltb (m_m g) bright) sample)).

(** mask.py:234-246, one sample: the columns are written for all its rows *)
Definition gen_sample (erf : R -> R) (rsig bright : R) (radbins : list R) (sample : list mgal) : list mgal :=
  map (fun g => set_radial g (map (fun rad => theta_rad erf rsig rad (m_r g)) radbins)
                             (map (fun rad => nin_of erf rsig bright rad sample) radbins)) sample.

(** python slice l[a:b] *)
Definition slice {A} (l : list A) (a b : nat) : list A := firstn (b - a) (skipn a l).
(** mask.py:113-114 *)
Definition select_sample (ngals : nat) (index : nat) (all : list mgal) : list mgal :=
  slice all (index * ngals) ((index + 1) * ngals).
(** mask.py:229-246, all samples; rows = ngals * nsamples (137) *)
Definition gen_all (erf : R -> R) (rsig bright : R) (radbins : list R) (ngals nsamples : nat) (rows : list mgal) : list mgal :=
  List.concat (map (fun j => gen_sample erf rsig bright radbins (select_sample ngals j rows)) (seq 0 nsamples)).

(** mask.py:314-320: which limit the detection probability uses *)
Definition det_limit (limmag : R) (gs : list mgal) : res (mgal -> R) :=
  match gs with
  | [] => Err IndexError
  | g0 :: _ =>
    let mx := fold_left Rmax (map m_m50 gs) (m_m50 g0) in
    if Rltb (m_w g0) 0 then Ok (fun _ => limmag)
    else if Req_EM_T (m_w g0) 0 then if Req_EM_T mx 0 then Ok (fun _ => limmag) else Ok m_m50
    else Err RuntimeError                          (* 320: a plain Exception *)
  end.

(** mask.py:300-323.  [obs g mag]: observed magnitude and error of mask galaxy [g] (apply_errormodels, 304).
    The result lists c at each radius; the number of radii is that of nin[0]. *)
Definition pdet (erf : R -> R) (obs : mgal -> R -> R * R) (lim : mgal -> R) (mstar maxmag : R) (g : mgal) : R :=
  let '(mag, err) := obs g (m_m g + mstar) in
  theta_i erf mag err maxmag (lim g) * (if m_mark g then 1 else 0).
Definition maskc (erf : R -> R) (obs : mgal -> R -> R * R) (mstar maxmag limmag : R) (gs : list mgal) : res (list R) :=
  match gs with
  | [] => Err IndexError
  | g0 :: _ =>
    if Rltb 0 (m_limmag g0) then
      do lim <- det_limit limmag gs;
      Ok (map (fun jn => 1 - lsum (map (fun g => pdet erf obs lim mstar maxmag g * nth (fst jn) (m_theta g) 0) gs) / snd jn)
              (combine (seq 0 (List.length (m_nin g0))) (m_nin g0)))
    else Err ValueError                            (* 311 *)
  end.
(** mask.py:325; [polyfit xs ys]: the four coefficients, highest power first *)
Definition calc_maskcorr (polyfit : list R -> list R -> R * R * R * R) (radbins : list R)
  (erf : R -> R) (obs : mgal -> R -> R * R) (mstar maxmag limmag : R) (gs : list mgal) : res (R * R * R * R) :=
  do c <- maskc erf obs mstar maxmag limmag gs; Ok (polyfit radbins c).

(** cluster.py:527-528: sum of cpars * rlam ** arange(cpars.size), clipped at 0 *)
Definition cval_err (cp : R * R * R * R) (rlam : R) : R :=
  let '(c0, c1, c2, c3) := cp in Rmax 0 (c0 + c1 * rlam + c2 * rlam ^ 2 + c3 * rlam ^ 3).
(** run_randoms_zmask.py:141: sum of cpars * r_lambda ** arange(cpars.size)[::-1], not clipped *)
Definition cval_zmask (cp : R * R * R * R) (rlam : R) : R :=
  let '(c0, c1, c2, c3) := cp in c0 * rlam ^ 3 + c1 * rlam ^ 2 + c2 * rlam + c3.
(** run_randoms_zmask.py:142 *)
Definition zmask_scaleval (cp : R * R * R * R) (rlam : R) : R := 1 / (1 - cval_zmask cp rlam).

(** cluster.py:624, one masked galaxy; lam*u + b = 0 (a NaN) is not modelled *)
Definition pout (lam u : R) (b : bval) : R := match b with Binf => 0 | Bval b => lam * u / (lam * u + b) end.

(** cluster.py:591-630.  [bkg r chisq mag]: calc_bkg_density. *)
Definition calc_lambdacerr (bkg : R -> R -> R -> bval) (limmag mstar beta gamma lam rlam cval : R)
  (gs : list mgal) (pmem : list R) : R :=
  let use := filter (fun g => Rltb (m_r g) rlam) gs in
  let u g := m_cwt g * (nfwnorm rlam * m_nfw g) * m_lumwt g in
  let refmag g := mstar + m_m g in
  let b g := bkg (m_r g) (m_chisq g) (if Rleb limmag (refmag g) then limmag - 1/100 else refmag g) in
  let out := filter (fun g => Rltb limmag (refmag g) || negb (m_mark g)) use in
  match out with
  | [] => 0
  | _ => if Rltb cval (1/100) then 0
         else let varc0 := (1 / lam) * (1 / INR (List.length use)) * lsum (map (fun g => pout lam (u g) (b g)) out) in
              let sigc := sqrt (varc0 - varc0 ^ 2) in
              let k := lam ^ 2 / lsum (map (fun p => p ^ 2) pmem) in
              k * sigc / (1 - beta * gamma)
  end.
