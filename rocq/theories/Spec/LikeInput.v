(** What the likelihood run has to start from. *)
From Coq Require Import QArith.
From Verif.Model Require Import LikeInput.
From Coq Require Import List. Import ListNotations.
Local Open Scope Q_scope.

(** in the redshift range (widened where redshifts are kept, but not below 0.05), with a richness, bright enough, in the mask if asked for *)
Definition likely (c : lcfg) (s : lrow) : Prop :=
  (if c_keepz c then c_z0 c - c_cushion c < r_z s /\ 5 # 100 < r_z s /\ r_z s < c_z1 c + c_cushion c else c_z0 c < r_z s /\ r_z s < c_z1 c) /\
  0 < r_lambda s /\ r_refmag s < r_mlim s /\ (c_clean c = true -> r_in s = true).
