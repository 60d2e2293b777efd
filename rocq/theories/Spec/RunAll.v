(** What a run over all pixels is to use. *)
From Coq Require Import ZArith.
From Verif.Base Require Import Py.
From Verif.Model Require Import RunAll.
From Coq Require Import List. Import ListNotations.

(** the file of pixel [p] is [f] in the order of the pixels: [l] lists exactly the pixels that have one *)
Definition files_of (get : wres -> option Z) (rs : list wres) (l : list (Z * Z)) : Prop :=
  (forall p f, In (p, f) l <-> exists w, In w rs /\ w_pix w = p /\ get w = Some f) /\
  (exists used, map fst l = map w_pix used /\ map Some (map snd l) = map get used /\ (exists keep, used = filter keep rs)).
(** the results of the workers *)
Definition all_done (W : world) (perc_only : bool) (c : rcfg) (pixels : list Z) (rs : list wres) : Prop :=
  Forall2 (fun p w => work W perc_only c p = Ok w) pixels rs.
