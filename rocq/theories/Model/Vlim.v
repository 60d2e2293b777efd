(** Volume limit mask and areas: volumelimit.py:94-208, 274-309; depthmap.py:197-254. *)
From Coq Require Import QArith.
From Verif.Base Require Import Py Sort.
Local Open Scope nat_scope.

Definition Qlist_min (l : list Q) : Q := match l with [] => 0%Q | x :: t => fold_left Qmin2 t x end.
Definition Qlist_max (l : list Q) : Q := match l with [] => 0%Q | x :: t => fold_left Qmax2 t x end.

(** volumelimit.py:138-145 and 191-198 for one pixel: the redshift limit from one band.  [limmags] are the magnitudes
    of the threshold galaxy at the redshifts [zbins], [depth] the depth of the pixel. *)
Definition band_zmax (zbins limmags : list Q) (depth : Q) : res Q :=
  if Qle_bool (Qlist_max limmags) depth then Ok (Qlist_max zbins)          (* assigned last, so it wins *)
  else if Qle_bool depth (Qlist_min limmags) then Ok (Qlist_min zbins)
  else py_index zbins (Z.of_nat (ss_right limmags depth)).
(** lines 136-201 for one pixel: the main band, then every extra band; a pixel outside of an extra map has depth 0
    there (line 168).  The conversion of the extra map's depth (164-169) and the extra band's magnitudes (171-186)
    are inputs. *)
Fixpoint extra_bands (zbins : list Q) (bs : list (list Q * option Q)) (zmax : Q) : res Q :=
  match bs with
  | [] => Ok zmax
  | (limmags, d) :: t =>
    do z <- band_zmax zbins limmags (match d with Some x => x | None => 0%Q end);
    extra_bands zbins t (if Qlt_bool z zmax then z else zmax)
  end.
(** None: the pixel is not in the mask (line 204) *)
Definition vlim_pixel (zbins limmags : list Q) (depth : Q) (bs : list (list Q * option Q)) : res (option Q) :=
  do z0 <- band_zmax zbins limmags depth;
  do z <- extra_bands zbins bs z0;
  do first <- py_index zbins 0;
  Ok (if Qlt_bool first z then Some z else None).

(** volumelimit.py:274-309 for one redshift.  A pixel is (zmax, fracgood). *)
Definition vlim_area (asort : list Q -> list nat) (pixsize : Q) (pix : list (Q * Q)) (z : Q) : res Q :=
  let zmax := map fst pix in
  let st := asort zmax in
  do fg <- np_take (map snd pix) st;
  do zs <- np_take zmax st;
  let ind := ss_right zs z in
  if Nat.leb ind 0 then Ok (Qsum fg * pixsize)%Q
  else let carea := map (fun c => (pixsize * c)%Q) (cumsum fg) in
       py_index carea (Z.of_nat (List.length carea) - Z.of_nat ind).
(** depthmap.py:232-254 for one magnitude (a depth map with a positive weight and no subregion).
    A pixel is (m50, fracgood). *)
Definition depth_area (asort : list Q -> list nat) (pixsize : Q) (pix : list (Q * Q)) (mag : Q) : res Q :=
  let gd := filter (fun p => Qlt_bool 0 (fst p)) pix in
  let st := asort (map fst gd) in
  do depths <- np_take (map fst gd) st;
  do fg <- np_take (map snd gd) st;
  let ind := clipZ 1 (Z.of_nat (List.length depths) - 1) (Z.of_nat (ss_left depths mag) - 1) in
  if (ind <? 0)%Z then Ok (Qsum fg * pixsize)%Q
  else let carea := map (fun c => (pixsize * c)%Q) (cumsum fg) in
       py_index carea (Z.of_nat (List.length carea) - ind).
