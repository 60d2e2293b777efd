From Verif.Base Require Import Py.
From Verif.Model Require Import ClusterZ.

(** All derived quantities belong to the stored redshift. *)
Definition scale_sync (co : cosmo) (c : clz) : Prop :=
  match k_z c with
  | None => k_mstar c = None /\ k_scale c = None
  | Some z => (1 # 100 <= z)%Q /\ k_mstar c = Some (co_mstar co z) /\ k_scale c = Some (co_scale co z)
  end.
Definition radius_sync (co : cosmo) (c : clz) : Prop :=
  forall z l, k_z c = Some z -> k_nb c = Some l ->
  forall n, In n l -> (z_r n = Qmax2 (co_scale co z * z_dist n)%Q (1 # 1000000)) /\ (1 # 1000000 <= z_r n)%Q.
Definition no_set (o : cop) : Prop := match o with OpSet _ => False | _ => True end.
