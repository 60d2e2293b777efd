(** The part of a HEALPix map around a pixel: utilities.py:1139-1166 [get_hpmask_subpix_indices]; the arrays given to the richness solver: solver_nfw/solver_nfw_lib.py:47-72 and
    solver_nfw_pywrap.c:56-80.  HEALPix is a parameter: [m_in a b p] is the pixel of size b with the center of pixel p of size a (pixel_to_angle, angle_to_pixel), [m_edge] the points on
    the boundary of a pixel, [m_disc] query_disc with the border.  esutil's match gives the positions in the second array of the values that are in the first, in order;
    it refuses an empty array (ValueError). *)
From Coq Require Import ZArith List.
From Verif.Base Require Import Py.
Import ListNotations.
Local Open Scope Z_scope.

Record mapgeo := mkMapgeo { m_in : Z -> Z -> Z -> Z; m_edge : Z -> Z -> Z -> list Z; m_disc : Z -> Z -> list Z }.
Definition npix (n : Z) : Z := 12 * n * n.
(** np.arange *)
Definition arange (n : Z) : list Z := map Z.of_nat (seq 0 (Z.to_nat n)).
(** np.unique *)
Fixpoint ins (x : Z) (l : list Z) : list Z := match l with [] => [x] | y :: t => if x <? y then x :: l else if x =? y then l else y :: ins x t end.
Definition unique (l : list Z) : list Z := fold_right ins [] l.
(** 1143: np.clip(4 submask_nside, 256, nside_mask), the upper limit last *)
Definition cutref (s m : Z) : Z := Z.min (Z.max (s * 4) 256) m.
(** 1146-1148 *)
Definition inside (g : mapgeo) (c s h : Z) : list Z := filter (fun p => m_in g c s p =? h) (arange (npix c)).
(** 1151-1160; [border]: whether submask_border is positive *)
Definition region (g : mapgeo) (c s h : Z) (border : bool) : list Z :=
  if border then fold_left (fun acc pt => unique (acc ++ m_disc g c pt)) (m_edge g s h (c / s)) (inside g c s h) else inside g c s h.
(** 1162-1168 *)
Definition subpix_indices (g : mapgeo) (s h : Z) (border : bool) (m : Z) (hpix : list Z) : list nat :=
  let c := cutref s m in let r := region g c s h border in np_where (fun p => existsb (Z.eqb (m_in g m c p)) r) hpix.

(** with the ValueError of the match *)
Definition cut_map (g : mapgeo) (s h : Z) (border : bool) (m : Z) (hpix : list Z) : res (list nat) :=
  match region g (cutref s m) s h border, hpix with [], _ => Err ValueError | _, [] => Err ValueError | _, _ => Ok (subpix_indices g s h border m hpix) end.

(** the constructor of Solver, from the sizes of the arrays; the result is the number of galaxies *)
Definition new_solver (ucounts bcounts r w cpars : nat) : res nat :=
  if negb (Nat.eqb ucounts bcounts) then Err ValueError
  else if negb (Nat.eqb ucounts r) then Err ValueError
  else if negb (Nat.eqb ucounts w) then Err ValueError
  else if negb (Nat.eqb cpars 4) then Err ValueError
  else Ok ucounts.
