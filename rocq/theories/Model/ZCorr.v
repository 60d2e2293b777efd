(** Redshift correction, ZlambdaCorrectionPar.apply_correction, zlambda.py:665-734, over the reals.
    [dz i z] and [xe i z] are the interpolated correction and extra scatter of step i at redshift z (lines 702-705, for
    the given richness); [simps] is scipy.integrate.simpson. *)
From Coq Require Import Reals.
From Verif.Base Require Import Py.
Local Open Scope R_scope.

Record corr := mkCorr { c_niter : nat; c_dz : nat -> R -> R; c_xe : nat -> R -> R }.
Definition pdist : Type := list R * list R.      (* pzbins, pzvals *)

(** lines 719-727; the bins are indexed at int((n-1)/2), 0 and 1 *)
Definition pz_step (simps : list R -> list R -> R) (zold znew e x : R) (p : pdist) : res pdist :=
  let '(bins, vals) := p in
  let n := List.length bins in
  match nth_error bins (Nat.div (n - 1) 2), nth_error bins 1, nth_error bins 0 with
  | Some m, Some b1, Some b0 =>
    let pdz := (b1 - b0) * sqrt (x ^ 2 + e ^ 2) / e in
    let bins' := map (fun i => pdz * INR i + znew - pdz * (INR n - 1) / 2 + (m - zold)) (seq 0 n) in
    Ok (bins', map (fun v => v / simps vals bins') vals)
  | _, _, _ => Err IndexError
  end.
(** one step, lines 701-729.  Without bins and with noerr the code subscripts None. *)
Definition corr_step (simps : list R -> list R -> R) (c : corr) (noerr : bool) (i : nat) (s : R * R * option pdist)
  : res (R * R * option pdist) :=
  let '(z, e, p) := s in
  let x := c_xe c i z in
  let z' := z + c_dz c i z in
  match p with
  | None => if noerr then Err TypeError else Ok (z', sqrt (e ^ 2 + x ^ 2), None)
  | Some pd => do pd' <- pz_step simps z z' e x pd; Ok (z', sqrt (e ^ 2 + x ^ 2), Some pd')
  end.
Fixpoint corr_from (simps : list R -> list R -> R) (c : corr) (noerr : bool) (i left : nat) (s : R * R * option pdist)
  : res (R * R * option pdist) :=
  match left with
  | 0%nat => Ok s
  | S l => do s' <- corr_step simps c noerr i s; corr_from simps c noerr (S i) l s'
  end.
Definition apply_correction simps (c : corr) (noerr : bool) (z e : R) (p : option pdist) : res (R * R * option pdist) :=
  corr_from simps c noerr 0 (c_niter c) (z, e, p).
