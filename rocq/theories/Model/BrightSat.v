(** The brightest satellites of the Monte Carlo of the centering calibration: calibration/centeringcal.py:442-533, and the use of its result, 382-383.
    Real arithmetic.  Inputs: the sampled magnitudes (483, C117), the random orders of the trials (495-496) and the Gaussian fit to a list of values. *)
From Coq Require Import Reals Lra.
From Verif.Base Require Import Py.
From Verif.Model Require Import Galfile ErrBin Wcen.
From Coq Require Import Lia List. Import ListNotations.
Local Open Scope R_scope.

(** 465-472: the number of richnesses; 488: np.linspace(20, 100) as integers *)
Definition nlambdas (testing : bool) : nat := if testing then 3 else 9.
Definition lambdas (n : nat) : list Z := map (fun i => (20 + Z.of_nat i * 80 / (Z.of_nat n - 1))%Z) (seq 0 n).
(** 500: mag[u] *)
Definition at_index (mag : list R) (i : nat) : res R := match nth_error mag i with Some m => Ok m | None => Err IndexError end.
(** 499-504: st[0:lambda - 1], and the three smallest magnitudes; [st]: an order of the galaxies *)
Definition trial (mag : list R) (lam : Z) (st : list nat) : res (R * R * R) :=
  do v <- mapM (at_index mag) (firstn (Z.to_nat (lam - 1)) st);
  match sortR v with a :: b :: c :: _ => Ok (a, b, c) | _ => Err IndexError end.
(** 513-524: the mean and the width of the fits; those of the second and the third are not used *)
Definition lam_fits (hist : list R -> res (R * R * R)) (rows : list (R * R * R)) : res (R * R) :=
  do f1 <- hist (map (fun r => fst (fst r)) rows);
  do _ <- hist (map (fun r => snd (fst r)) rows);
  do _ <- hist (map (fun r => snd r) rows);
  Ok (snd (fst f1), snd f1).
(** np.polyfit of degree 1: (intercept, slope), the solution of the normal equations *)
Definition sumR (l : list R) : R := fold_right Rplus 0 l.
Definition dotR (x y : list R) : R := sumR (map (fun p => fst p * snd p) (combine x y)).
Definition polyfit1 (x y : list R) : R * R :=
  let n := INR (List.length x) in
  let slope := (n * dotR x y - sumR x * sumR y) / (n * dotR x x - sumR x * sumR x) in
  ((sumR y - slope * sumR x) / n, slope).
(** 494-533 *)
Definition montecarlo (hist : list R -> res (R * R * R)) (pivot : R) (testing : bool) (mag : list R) (sts : list (list nat)) : res phi1 :=
  let lams := lambdas (nlambdas testing) in
  do rows <- mapM (fun lam => mapM (trial mag lam) sts) lams;
  do fits <- mapM (lam_fits hist) rows;
  let x := map (fun l => ln (IZR l / pivot)) lams in
  let m := polyfit1 x (map fst fits) in let s := polyfit1 x (map snd fits) in
  Ok (mkPhi (fst m) (snd m) (fst s) (snd s)).
(** 382-383 *)
Definition bright_mean (p : phi1) (pivot mstar lam : R) : R := mstar + p_m p + p_slope p * ln (lam / pivot).
Definition bright_width (p : phi1) (pivot lam : R) : R := p_sig_m p + p_sig_slope p * ln (lam / pivot).
