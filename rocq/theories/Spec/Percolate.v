(** What a percolation run has to do, without reference to the code. *)
From Coq Require Import QArith ZArith List Permutation.
From Verif.Model Require Import Percolate.
Import ListNotations.
Local Open Scope nat_scope.

(** the redshift range: with kept redshifts it is widened, but not below 0.05 *)
Definition in_range (c : perc) (z : Q) : Prop :=
  (if p_keepz c then (p_z0 c - p_cushion c < z /\ 1 # 20 < z /\ z < p_z1 c + p_cushion c)%Q else (p_z0 c < z /\ z < p_z1 c)%Q).
(** a cluster the run may start from *)
Definition usable (c : perc) (s : seed) : Prop :=
  in_range c (s_z s) /\ (exists v, s_like s = Some v) /\ (p_minlambda c < s_lambda s)%Q /\ (s_refmag s < s_mlim s)%Q /\
  (p_clean c = true -> s_in s = true).
(** a cluster without its identifier *)
Definition anonymous (s : seed) : seed := with_id s 0.

(** the redshift at which iteration [i] of the loop works, for a cluster that starts at [z] *)
Definition start_z (o : outcome) (g : pcfg) (z : Q) : Q := if g_keepz g then z else o_zl o z.
Definition later_z (o : outcome) (g : pcfg) (z : Q) : Q :=
  let z1 := start_z o g z in if negb (g_keepz g) && negb (Qle_bool (o_zlam o z1) 0) then o_zlam o z1 else z1.
Definition z_at (o : outcome) (g : pcfg) (z : Q) (i : nat) : Q := if i =? 0 then start_z o g z else later_z o g z.
(** every check the percolation makes of a cluster, in one place *)
Definition passes (o : outcome) (g : pcfg) (z : Q) : Prop :=
  (g_cut g <= o_pfree o)%Q /\ 2 <= o_near o /\ (g_minlambda g <= o_ratio o)%Q /\ 3 <= o_incut o /\
  (0 <= start_z o g z)%Q /\ o_center o = true /\ (g_cut g <= o_cfree o)%Q /\ (0 <= o_zlam o (start_z o g z))%Q /\
  forall i, i < g_maxiter g -> 2 <= o_lc o i (z_at o g z i) /\ (g_minlambda g <= snd (o_rich o i (z_at o g z i)))%Q.
