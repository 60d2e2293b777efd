(** The memory needed by tiles of various sizes: pipeline/mempredict.py:24-109 (MemPredict.predict_memory).  Exact arithmetic: the
    32-bit floats of the result are not modelled.  Files that cannot be read are not modelled. *)
From Coq Require Import QArith String.
From Verif.Base Require Import Py.
From Coq Require Import List. Import ListNotations.
Local Open Scope Q_scope.

(** ** Python's binding of arguments: [params] are the names of the parameters, [npos] the number of positional arguments,
    [kws] the names of the others *)
Definition binds (params : list string) (npos : nat) (kws : list string) : res unit :=
  if Nat.ltb (List.length params) npos then Err TypeError
  else if forallb (fun k => existsb (String.eqb k) (skipn npos params)) kws then Ok tt else Err TypeError.
(** hpgeom.pixel_to_angle(nside, pix, nest=True, lonlat=True, degrees=True) *)
Definition pixel_to_angle_params : list string := ["nside"; "pix"; "nest"; "lonlat"; "degrees"]%string.
(** 91: two positional arguments; 93-94: three positional arguments *)
Definition call91 : res unit := binds pixel_to_angle_params 2 ["lonlat"; "nest"]%string.
Definition call94 : res unit := binds pixel_to_angle_params 3 ["lonlat"; "nest"]%string.

(** ** the galaxy table: its nside, the pixel and number of galaxies of each file, and the fields of a galaxy with their sizes in
    bytes; [m_zbytes]: the size of a row of the redshift files *)
Record table := mkTable { m_nside : Z; m_rows : list (Z * Z); m_fields : list (string * Z); m_zbytes : Z }.
(** 52-62 *)
Definition truth (f : string) : bool := existsb (String.eqb f) ["ztrue"; "m200"; "central"; "halo_id"]%string.
Definition zsum (l : list Z) : Z := fold_right Z.add 0%Z l.
(** 64-77 *)
Definition nbytes (t : table) (include_zreds : bool) : Z :=
  (zsum (map snd (filter (fun f => negb (truth (fst f))) (m_fields t))) + if include_zreds then m_zbytes t else 0)%Z.
(** 82 *)
Definition tab_mb (t : table) (include_zreds : bool) : list Q := map (fun r => inject_Z (snd r * nbytes t include_zreds) / 1000000) (m_rows t).
(** 85-87; each turn doubles the side, so [m_nside] turns are more than enough *)
Fixpoint sides_from (fuel : nat) (n last : Z) : list Z :=
  last :: match fuel with O => [] | S f => if (last <? n)%Z then sides_from f n (2 * last) else [] end.
Definition sides (n : Z) : list Z := sides_from (Z.to_nat n) n 2.

Definition tile_sum (tiles : list Z) (mb : list Q) (p : Z) : Q := Qsum (map snd (filter (fun x => Z.eqb (fst x) p) (combine tiles mb))).
(** 96-104 for one side: number of tiles and largest memory.  [tiles]: the tile of each file, as returned by the call of line 94.
    esutil's histogram fails on an empty list. *)
Definition predict_one (tiles : list Z) (mb : list Q) (border : Q) : res (Z * Q) :=
  match tiles with
  | [] => Err ValueError
  | _ => let used := nodup Z.eq_dec tiles in
         Ok (Z.of_nat (List.length used), fold_left (fun m p => let x := tile_sum tiles mb p * border in if Qlt_bool m x then x else m) used 0)
  end.
(** 79-109, with [call i nside pix] in place of the call of line 94 for the pixel of a file *)
Fixpoint gather {A B} (f : A -> res B) (l : list A) : res (list B) :=
  match l with [] => Ok [] | x :: t => do y <- f x; do r <- gather f t; Ok (y :: r) end.
Definition predict (call : Z -> list Z -> res (list Z)) (t : table) (include_zreds : bool) (border : Q) : res (list (Z * (Z * Q))) :=
  gather (fun n => do tiles <- call n (map fst (m_rows t)); do r <- predict_one tiles (tab_mb t include_zreds) border; Ok (n, r)) (sides (m_nside t)).
(** the method itself: the calls of lines 91 and 94, whose results do not matter as the second fails *)
Definition predict_memory (angles : Z -> list Z -> list Z) (t : table) (include_zreds : bool) (border : Q) : res (list (Z * (Z * Q))) :=
  do _ <- call91; predict (fun n pix => do _ <- call94; Ok (angles n pix)) t include_zreds border.
