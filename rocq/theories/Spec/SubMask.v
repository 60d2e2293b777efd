(** HEALPix: sizes are powers of two, and a pixel of one size is in one pixel of each coarser size. *)
From Coq Require Import ZArith.
From Verif.Model Require Import SubMask.
Local Open Scope Z_scope.
(** The center of a pixel is in a pixel of the map of the other size; of sizes a, b, c with a coarsest, the pixel of size a of a pixel of size c is that of its pixel of size b. *)
Record healpix_laws (g : mapgeo) : Prop := {
  l_range : forall a b p, 0 <= a -> 0 <= b -> 0 <= p < 12 * (2^a * 2^a) -> 0 <= m_in g (2^a) (2^b) p < 12 * (2^b * 2^b);
  l_nest : forall a b c p, 0 <= a <= b -> b <= c -> 0 <= p < 12 * (2^c * 2^c) -> m_in g (2^b) (2^a) (m_in g (2^c) (2^b) p) = m_in g (2^c) (2^a) p }.
