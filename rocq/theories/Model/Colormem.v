(** Red training galaxies (calibration/selectspecred.py:82-87, 190-216) and the first member run of the calibration
    (run_colormem.py, with the two passes of cluster_runner.py:360-381).  The fits of the color model
    (selectspecred.py:94-188) and the richness of a cluster are parameters. *)
From Coq Require Import QArith.
From Verif.Base Require Import Py Sort.
From Verif.Model Require Import Runner.
Local Open Scope nat_scope.
Local Open Scope list_scope.

Record gal := mk_gal { g_id : Z; g_z : Q; g_refmag : Q }.
(** configuration.py:831-837 *)
Definition cushioned (zrange : Q * Q) (cushion : Q) : Q * Q :=
  (Qmax2 (fst zrange - cushion) (5 # 100), snd zrange + cushion)%Q.
(** selectspecred.py:192-194, run_colormem.py:93-95 *)
Definition zbounds (zrange : Q * Q) (inner : list Q) : list Q :=
  ((fst zrange - (11 # 1000))%Q :: inner ++ [(snd zrange + (11 # 1000))%Q]).
(** selectspecred.py:85-87 *)
Definition in_range (zrange : Q * Q) (lim : Q) (g : gal) : bool :=
  Qlt_bool (fst zrange) (g_z g) && Qlt_bool (g_z g) (snd zrange) && Qlt_bool (g_refmag g) lim.
(** selectspecred.py:198-211: one mode.  [red j g]: the color j of the galaxy is within calib_redspec_nsig widths of
    the fitted color at its redshift (209-210) *)
Definition mark_mode (red : Z -> gal -> bool) (bounds : list Q) (modes : list Z) (gals : list gal) (mark : list bool) (m : nat) : res (list bool) :=
  match nth_error bounds m, nth_error bounds (S m), nth_error modes m with
  | Some a, Some b, Some j =>
      Ok (map (fun gm => if Qlt_bool a (g_z (fst gm)) && Qlt_bool (g_z (fst gm)) b && red j (fst gm) then true else snd gm) (combine gals mark))
  | _, _, _ => Err IndexError
  end.
Fixpoint mark_modes (red : Z -> gal -> bool) (bounds : list Q) (modes : list Z) (gals : list gal) (mark : list bool) (ms : list nat) : res (list bool) :=
  match ms with
  | [] => Ok mark
  | m :: t => do mark' <- mark_mode red bounds modes gals mark m; mark_modes red bounds modes gals mark' t
  end.
(** selectspecred.py:82-87, 190-216; [zrange] is zrange_cushioned *)
Definition select (red : Z -> gal -> bool) (zrange : Q * Q) (lim : Q) (inner : list Q) (modes : list Z) (gals : list gal) : res (list gal) :=
  let gals := filter (in_range zrange lim) gals in
  do mark <- mark_modes red (zbounds zrange inner) modes gals (map (fun _ => false) gals) (seq 0 (length modes));
  Ok (map fst (filter snd (combine gals mark))).

(** run_colormem.py:125-134 *)
Fixpoint find_interval (bounds : list Q) (z : Q) (m : nat) : option nat :=
  match bounds with
  | a :: t =>
      match t with
      | b :: _ => if Qlt_bool a z && Qle_bool z b then Some m else find_interval t z (S m)
      | [] => None
      end
  | [] => None
  end.
Definition mode_of (zrange : Q * Q) (inner : list Q) (modes : list Z) (z : Q) : res Z :=
  match find_interval (zbounds zrange inner) z 0 with
  | None => Err RuntimeError
  | Some m => match nth_error modes m with Some j => Ok j | None => Err IndexError end
  end.

(** *** The two passes, cluster_runner.py:365-381, run_colormem.py:106-111.  [p1], [p2]: what is computed for a cluster in the
    first and the second pass (they differ in the random sample of mask galaxies). *)
Definition first_pass (mc : bool) (p1 : cl -> list Q -> outcome) (cs : list cl) : rstate := run_loop (mkFL false false mc) p1 cs.
Definition between (asort : list Q -> list nat) (cs : list cl) (s : rstate) : res (list cl) := np_take cs (desc asort (map cr_lambda (rs_cat s))).
Definition second_pass (mc : bool) (p2 : cl -> list Q -> outcome) (cs : list cl) : rstate := run_loop (mkFL true true mc) p2 cs.
(** run_colormem.py:164; [cols]: scaleval and maskfrac of a cluster *)
Definition kept (minlambda maxfrac : Q) (cols : Z -> Q * Q) (r : crec) : bool :=
  Qle_bool minlambda (cr_lambda r / fst (cols (cr_id r))) && Qlt_bool 0 (fst (cols (cr_id r))) && Qlt_bool (snd (cols (cr_id r))) maxfrac.
(** run_colormem.py:154-174 (without the noise added to the redshifts of the members) *)
Definition post (keep : crec -> bool) (s : rstate) : res (list crec * list mrec) :=
  let cat := filter keep (rs_cat s) in
  match rs_mem s with
  | None => Err AttributeError
  | Some ms => do m <- eu_match (map cr_id cat) (map mr_id ms); do ms' <- np_take ms (snd m); Ok (cat, ms')
  end.
(** run_colormem.py:184-186 *)
Definition training (pcol : mrec -> Q) (pcut : Q) (ms : list mrec) : list mrec := filter (fun m => Qlt_bool pcut (pcol m)) ms.
(** the whole run *)
Definition colormem (asort : list Q -> list nat) (mc : bool) (p1 p2 : cl -> list Q -> outcome) (keep : crec -> bool) (pcol : mrec -> Q) (pcut : Q)
  (cs : list cl) : res (list crec * list mrec) :=
  do cs2 <- between asort cs (first_pass mc p1 cs);
  do r <- post keep (second_pass mc p2 cs2);
  Ok (fst r, training pcol pcut (snd r)).
