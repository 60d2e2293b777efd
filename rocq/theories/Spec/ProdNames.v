(** Specification for C144. *)
From Coq Require Import QArith Qround.
From Verif.Base Require Import Py.
From Verif.Model Require Import ProdNames.
From Coq Require Import List. Import ListNotations.

(** what can be told from the name: hundredths of redshifts, whole richnesses, tenths of luminosities *)
Definition digits_of (a : wargs) : (Z * Z) * Z * option (Z * Z) * Z :=
  (Qfloor (fst (wa_conf a) * 100), Qfloor (snd (wa_conf a) * 100), Qfloor (wa_min a), 
   match wa_bin a with None => None | Some (lo, hi) => Some (Qfloor lo, Qfloor hi) end, Qfloor (wa_lstar a * 10))%Q.
Definition sensible_args (a : wargs) : Prop :=
  (0 <= fst (wa_conf a) /\ 0 <= snd (wa_conf a) /\ 0 <= wa_min a /\ 0 <= wa_lstar a)%Q /\ match wa_bin a with None => True | Some (lo, hi) => (0 <= lo /\ 0 <= hi)%Q end.
