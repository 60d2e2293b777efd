(** Model of the color loop of the red-sequence calibration:
    redmapper/calibration/redsequencecal.py:314-360, 488-720. *)
From Coq Require Import Reals Lra.
From Verif.Base Require Import Py.
Local Open Scope R_scope.

(** redsequencecal.py:491-505: (color, sign, band) in the order of processing; sign is true for +1 *)
Record cstep := { t_col : nat; t_plus : bool; t_band : nat }.
Definition order (ref nmag : nat) : list cstep :=
  map (fun j => {| t_col := j - 1; t_plus := false; t_band := j |}) (seq (ref + 1) (nmag - (ref + 1))) ++
  map (fun j => {| t_col := j - 1; t_plus := true; t_band := j - 1 |}) (rev (seq 1 ref)).
(** the neighboring band: mind + sign *)
Definition neighbor (t : cstep) : nat := if t_plus t then t_band t + 1 else t_band t - 1.

(** what has been written so far: the model magnitude of each band (one galaxy) and the error ratio of
    each band.  None: never written; reading it is [Err NameError] here (the code would read the zero
    of a fresh array). *)
Record cstate := { k_mag : nat -> option R; k_ratio : nat -> option R }.
Definition upd (f : nat -> option R) (b : nat) (v : R) : nat -> option R := fun x => if Nat.eqb x b then Some v else f x.
Definition known (f : nat -> option R) (b : nat) : res R := match f b with Some v => Ok v | None => Err NameError end.

(** what one step did: which of the two errors of the color was rescaled and by which band's ratio,
    which are fitted, and which bands' ratios were written *)
Record event := { e_col : nat; e_scaled : option (nat * nat); e_fit : list nat; e_set : list nat }.
(** redsequencecal.py:350: the model magnitude of the new band *)
Definition new_mag (colour : nat -> R) (t : cstep) (m : R) : R :=
  if t_plus t then m + colour (t_col t) else m - colour (t_col t).
(** redsequencecal.py:515-697 for the [c]-th color; [colour j]: model color j of the galaxy;
    [fit j s]: the error ratio fitted for color j given the ratio [s] of the known band, if any *)
Definition do_color (lup fit_ratio : bool) (colour : nat -> R) (fit : nat -> option R -> R) (c : nat) (t : cstep) (st : cstate) : res (cstate * event) :=
  let j := t_col t in
  do mags <- (if lup then do m <- known (k_mag st) (neighbor t); Ok (upd (k_mag st) (t_band t) (new_mag colour t m)) else Ok (k_mag st));
  if fit_ratio then
    if Nat.eqb c 0 then
      let v := fit j None in
      Ok ({| k_mag := mags; k_ratio := upd (upd (k_ratio st) j v) (j + 1) v |},
          {| e_col := j; e_scaled := None; e_fit := [0; 1]%nat; e_set := [j; j + 1]%nat |})
    else
      do s <- known (k_ratio st) (neighbor t);
      let v := fit j (Some s) in
      Ok ({| k_mag := mags; k_ratio := upd (k_ratio st) (t_band t) v |},
          {| e_col := j; e_scaled := Some ((if t_plus t then 1 else 0)%nat, neighbor t);
             e_fit := [if t_plus t then 0 else 1]%nat; e_set := [t_band t] |})
  else
    Ok ({| k_mag := mags; k_ratio := upd (upd (k_ratio st) j 1) (j + 1) 1 |},
        {| e_col := j; e_scaled := None; e_fit := []; e_set := [j; j + 1]%nat |}).
Fixpoint do_colors (lup fit_ratio : bool) (colour : nat -> R) (fit : nat -> option R -> R) (c : nat) (l : list cstep) (st : cstate) : res (cstate * list event) :=
  match l with
  | [] => Ok (st, [])
  | t :: l => do r <- do_color lup fit_ratio colour fit c t st;
              do r2 <- do_colors lup fit_ratio colour fit (S c) l (fst r);
              Ok (fst r2, snd r :: snd r2)
  end.
(** redsequencecal.py:507-510: only the reference band's magnitude is known at the start *)
Definition calibrate_diagonal (lup fit_ratio : bool) (colour : nat -> R) (fit : nat -> option R -> R) (ref nmag : nat) (refmag : R) : res (cstate * list event) :=
  do_colors lup fit_ratio colour fit 0 (order ref nmag)
    {| k_mag := fun b => if Nat.eqb b ref then Some refmag else None; k_ratio := fun _ => None |}.

(** redsequencecal.py:692-694 and 713-721 at one redshift node: scatters on the diagonal, a constant
    correlation off it *)
Definition mset2 (m : nat -> nat -> R) (i j : nat) (v : R) : nat -> nat -> R :=
  fun a b => if Nat.eqb a i && Nat.eqb b j then v else m a b.
Definition offdiagonal (ncol : nat) (rho : R) (sg : nat -> R) (diag : nat -> nat -> R) : nat -> nat -> R :=
  fold_left (fun m j => fold_left (fun m k =>
      let v := rho * sg j * sg k in mset2 (mset2 m j k v) k j v) (seq (j + 1) (ncol - (j + 1))) m)
    (seq 0 ncol) diag.
Definition diagonal (sg : nat -> R) : nat -> nat -> R := fun i j => if Nat.eqb i j then sg i * sg i else 0.
