(** Maps read for a region of the sky: utilities.py:1169-1229 (get_healsparse_subpix_indices), used in depthmap.py:57-63,
    volumelimit.py:81-87 and mask.py:361-368; the pixels of a region in depthmap.py:219-233 and volumelimit.py:294.
    A resolution is given by its order (nside = 2^order); nested pixels: the parent of pixel p is p/4.  A position is a pixel of the
    map (order [D], nested).  The numbering in rings [r2n] (order, ring pixel -> nested pixel) and the pixels within the border of a
    region (hpc.boundaries, query_disc) are inputs.  Simplified: the center of a pixel is in its parents; np.unique without order. *)
From Verif.Base Require Import Py.
From Coq Require Import PeanoNat Lia List. Import ListNotations.

(** pixel of order [k'] <= [k] that contains pixel [p] of order [k] *)
Definition parent (k k' p : nat) : nat := p / 4 ^ (k - k').
(** 1205-1210: all pixels of order [k'] >= [k] in pixel [p] of order [k]; also depthmap.py:226-230 *)
Definition children (k k' p : nat) : list nat := map (fun i => p * 4 ^ (k' - k) + i) (seq 0 (4 ^ (k' - k))).
(** 1185-1229; [s]: order of the region, None for nside = 0; [c]: order of the coverage; [near]: query_disc over the boundary *)
Definition subpix (r2n : nat -> nat -> nat) (s : option nat) (hpix : list nat) (border : bool) (c : nat) (near : nat -> list nat) : res (option (list nat)) :=
  match hpix with
  | [] => Err RuntimeError
  | h0 :: rest =>
    if border && negb (List.length rest =? 0) then Err NotImplementedError
    else match s with
         | None => Ok None
         | Some s =>
           let covpix := if s =? c then map (r2n s) hpix
                         else if c <? s then map (fun h => parent s c (r2n s h)) hpix
                         else flat_map (fun h => children s c (r2n s h)) hpix in
           if border then
             let t := Nat.max (c + 2) (s + 2) in
             Ok (Some (nodup Nat.eq_dec (covpix ++ map (fun e => parent t c (r2n t e)) (near t))%list))
           else Ok (Some covpix)
         end
  end.
(** depthmap.py:57-61, volumelimit.py:81-85, mask.py:361-366 *)
Definition region_pixels (r2n : nat -> nat -> nat) (s : option nat) (hpix : list nat) (border : bool) (c : nat) (near : nat -> list nat) : res (option (list nat)) :=
  match hpix with [] => Ok None | _ => subpix r2n s hpix border c near end.
(** healsparse: reading with pixels=covpix keeps the values in these pixels of the coverage; None: no value (UNSEEN) *)
Definition read_map {V} (D c : nat) (pix : option (list nat)) (m : nat -> option V) : nat -> option V :=
  match pix with
  | None => m
  | Some l => fun p => if existsb (Nat.eqb (parent D c p)) l then m p else None
  end.
(** ** depthmap.py:219-233, the pixels whose area counts; [valid]: valid_pixels of the map read *)
Definition area_pixels (r2n : nat -> nat -> nat) (D : nat) (s : nat) (hpix : list nat) (border : bool) (valid : list nat) : res (list nat) :=
  match hpix with
  | [] => Ok valid
  | _ => if border then Err RuntimeError else Ok (flat_map (fun h => children s D (r2n s h)) hpix)
  end.
(** volumelimit.py:294: all the pixels that were read *)
Definition vlim_pixels {V} (D c : nat) (pix : option (list nat)) (m : nat -> option V) (all : list nat) : list nat :=
  filter (fun p => match read_map D c pix m p with Some _ => true | None => false end) all.
