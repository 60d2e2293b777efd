(** Values of maps at positions, and maps converted from tables: depthmap.py:75-135 (get_depth_values, get_fracgoods), 280-326
    (convert_depthfile_to_healsparse), volumelimit.py:210-272 (_build_geometry_mask, calc_zmax), mask.py:374-404 (compute_radmask), 428-451
    (convert_maskfile_to_healsparse).
    healsparse and hpgeom are parameters: [pix ra dec] is the nested pixel of a position, which raises ValueError for a declination
    beyond the poles; a map is a partial function on nested pixels.  Outside a map healsparse returns hpgeom.UNSEEN in every float
    field. *)
From Coq Require Import QArith Qabs.
From Verif.Base Require Import Py.
From Coq Require Import List. Import ListNotations.
Local Open Scope Q_scope.

(** hpgeom.UNSEEN *)
Definition unseen : Q := -1637500000000000000000000000000 # 1.
Definition sky := Q -> Q -> res Z.
Definition hmap (A : Type) := Z -> option A.

(** get_values_pos *)
Definition values_pos {A} (pix : sky) (m : hmap A) (out : A) (pos : list (Q * Q)) : res (list A) :=
  fold_right (fun p acc => do v <- pix (fst p) (snd p); do t <- acc; Ok (match m v with Some a => a | None => out end :: t)) (Ok []) pos.

(** ** depth maps *)
Record dval := mkDval { d_limmag : Q; d_exptime : Q; d_m50 : Q; d_frac : Q }.
Definition dout : dval := mkDval unseen unseen unseen unseen.
Definition beyond (dec : Q) : bool := Qlt_bool 90 (Qabs dec).
(** depthmap.py:96-108 *)
Definition get_depth_values (pix : sky) (m : hmap dval) (ras decs : list Q) : res (list (Q * Q * Q)) :=
  if Nat.eqb (length ras) (length decs) then
    do vals <- values_pos pix m dout (combine ras (map (clipQ (-(90)) 90) decs));
    Ok (map (fun vd => if beyond (snd vd) then (unseen, unseen, unseen) else (d_limmag (fst vd), d_exptime (fst vd), d_m50 (fst vd))) (combine vals decs))
  else Err ValueError.
(** depthmap.py:127-135 *)
Definition get_fracgoods (pix : sky) (m : hmap dval) (ras decs : list Q) : res (list Q) :=
  if Nat.eqb (length ras) (length decs) then
    do vals <- values_pos pix m dout (combine ras (map (clipQ (-(90)) 90) decs));
    Ok (map (fun vd => if beyond (snd vd) then 0 else d_frac (fst vd)) (combine vals decs))
  else Err ValueError.

(** ** volume-limit maps: (zmax, fracgood); volumelimit.py:260-272 with get_fracgood *)
Definition calc_zmax (pix : sky) (m : hmap (Q * Q)) (ras decs : list Q) : res (list (Q * Q)) :=
  if Nat.eqb (length ras) (length decs) then
    do vals <- values_pos pix m (unseen, unseen) (combine ras decs);
    Ok (map (fun vd => let '(z, f) := if beyond (snd vd) then (unseen, 0) else fst vd in (Qmax2 z 0, f)) (combine vals decs))
  else Err ValueError.
(** volumelimit.py:219-235: the mask of the survey with the same redshift limit everywhere *)
Definition geometry_mask (mask : hmap Q) (zmax : Q) : hmap (Q * Q) := fun p => option_map (fun f => (zmax, f)) (mask p).

(** ** mask.py:394-404; [u]: the random numbers *)
Definition inside (p : Q * Q) : bool := Qlt_bool (Qabs (snd p)) 90.
(** mask.py:398-401: zeros, with the values looked up at the places where [ok] holds *)
Fixpoint fill (ok : Q * Q -> bool) (ps : list (Q * Q)) (vs : list Q) : list Q :=
  match ps with
  | [] => []
  | p :: t => if ok p then match vs with v :: vs' => v :: fill ok t vs' | [] => 0 :: fill ok t [] end else 0 :: fill ok t vs
  end.
Definition compute_radmask (pix : sky) (mask : hmap Q) (ras decs u : list Q) : res (list bool) :=
  if Nat.eqb (length ras) (length decs) then
    let pos := combine ras decs in
    do vals <- values_pos pix mask unseen (filter inside pos);
    Ok (map (fun fu => Qlt_bool (snd fu) (fst fu)) (combine (fill inside pos vals) u))
  else Err ValueError.

(** ** tables converted to maps: rows are pixel and value; [nested] is the flag in the header, [r2n] the nested number of a ring pixel.
    update_values_pix: a later row of the same pixel replaces an earlier one *)
Definition converted {A} (r2n : Z -> Z) (nested : bool) (rows : list (Z * A)) : hmap A :=
  fun p => option_map snd (find (fun r => Z.eqb (if nested then fst r else r2n (fst r)) p) (rev rows)).
