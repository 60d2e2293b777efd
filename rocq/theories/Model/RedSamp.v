(** The galaxies of the redMaGiC calibration, its redshift ranges and the start values of the fit: redmagic/redmagic_calibrate.py:372-406,
    455-464, 523-526 and 561-591.  Real arithmetic.  Inputs: the characteristic magnitude and the volume of a redshift shell. *)
From Coq Require Import Reals Lra.
From Verif.Base Require Import Py.
From Verif.Model Require Import BkgGen Depth ErrBin.
From Coq Require Import Lia List. Import ListNotations.
Local Open Scope R_scope.

(** a galaxy: zred_uncorr (372), chisq, refmag *)
Record sgal := mkSG { s_z : R; s_chisq : R; s_mag : R }.
(** redmagic_zrange, redmagic_calib_redshift_buffer, redmagic_calib_zbinsize, redmagic_calib_chisqcut *)
Record sconf := mkSC { c_lo : R; c_hi : R; c_buf : R; c_bin : R; c_chi : R }.
(** one run: redmagic_etas[i], redmagic_zmaxes[i], redmagic_n0s[i] *)
Record srun := mkSR { r_eta : R; r_zmax : R; r_n0 : R }.

(** np.ceil *)
Definition ceilR (x : R) : Z := (- Int_part (- x))%Z.
(** 384-387, 460-464 *)
Definition cost_range (k : sconf) (hi : R) : R * R :=
  let a := c_lo k + c_buf k in let b := hi - c_buf k in (a, IZR (ceilR ((b - a) / c_bin k)) * c_bin k + a).
(** 395: np.min *)
Definition min_eta (rs : list srun) : res R := match rs with [] => Err ValueError | r :: t => Ok (fold_left (fun m x => Rmin m (r_eta x)) t (r_eta r)) end.
(** 395, 523: lstar_cushion 0.05 (389) *)
Definition cushioned (eta : R) : R := Rmax (eta - 5/100) (1/10).
(** 393-399: z_cushion 0.05 (390) *)
Definition may_be (mstar : R -> R) (k : sconf) (minl : R) (g : sgal) : bool :=
  let c := cost_range k (c_hi k) in
  (Rltb (fst c - 5/100 - c_buf k) (s_z g) && Rltb (s_z g) (snd c + 5/100 + c_buf k) && Rltb (s_chisq g) (c_chi k)
   && Rltb (s_mag g) (mstar (s_z g) - 25/10 * log10 minl))%bool.
(** 395-405 *)
Definition cut_gals (mstar : R -> R) (k : sconf) (rs : list srun) (gals : list sgal) : res (list sgal) :=
  do m <- min_eta rs;
  match filter (may_be mstar k (cushioned m)) gals with [] => Err RuntimeError | use => Ok use end.
(** 526 *)
Definition red_poss (mstar : R -> R) (r : srun) (gals : list sgal) : list sgal :=
  filter (fun g => Rltb (s_mag g) (mstar (s_z g) - 25/10 * log10 (cushioned (r_eta r)))) gals.
(** 576-583: where the galaxies of node [j] are counted *)
Definition window (bin : R) (nodes : list R) (j : nat) : R * R :=
  let z := nth j nodes 0 in
  if Nat.eqb j 0 then (z, z + bin) else if Nat.eqb j (List.length nodes - 1) then (z - bin, z) else (z - bin / 2, z + bin / 2).
(** 585-591; [vol]: test_vol[j]; np.searchsorted in the increasing densities counts those below *)
Definition start_chi (vol n0 : R) (chis : list R) : res R :=
  let den := map (fun i => INR i / vol) (seq 0 (List.length chis)) in
  let i := List.length (filter (fun d => Rltb d (n0 * (1/10000))) den) in
  let ind := Z.min (Z.of_nat i) (Z.of_nat (List.length chis) - 1) in
  if (ind <? 0)%Z then Err IndexError                                          (* st[-1] of an empty array *)
  else match nth_error (sortR chis) (Z.to_nat ind) with Some c => Ok c | None => Err IndexError end.
Definition start_at (k : sconf) (r : srun) (shell : R -> R) (nodes : list R) (gals : list sgal) (j : nat) : res R :=
  let w := window (c_bin k) nodes j in
  start_chi (shell (nth j nodes 0)) (r_n0 r) (map s_chisq (filter (fun g => (Rltb (fst w) (s_z g) && Rltb (s_z g) (snd w))%bool) gals)).
(** 561-591; [const]: redmagic_constchis[i] if redmagic_use_constchi; [shell]: the volume about a node *)
Fixpoint mapN {A} (f : nat -> res A) (n i : nat) : res (list A) := match n with O => Ok [] | S m => do x <- f i; do t <- mapN f m (S i); Ok (x :: t) end.
Definition start_vals (k : sconf) (r : srun) (const : option R) (shell : R -> R) (nodes : list R) (gals : list sgal) : res (list R) :=
  match const with
  | Some c => Ok (map (fun _ => c) nodes)
  | None => mapN (start_at k r shell nodes gals) (List.length nodes) 0
  end.
