(** C136: which clusters enter the likelihood run, and the percolation after it. *)
From Coq Require Import QArith.
From Verif.Base Require Import Py PyLemmas.
From Verif.Model Require Import LikeInput Percolate.
From Verif.Spec Require Import LikeInput Percolate.
From Verif.Proofs Require Import LikeInput.
From Coq Require Import Lqa Lia List. Import ListNotations.
Local Open Scope Q_scope.

(** C136: the run starts from exactly the likely clusters, in the order of the catalog, and gives up exactly if there are none. *)
Theorem C136_rows : forall c cat ok, (forall s, ok s = true <-> likely c s) ->
  like_setup c cat = (match filter ok cat with [] => Ok None | _ => Ok (Some (filter ok cat)) end).
Proof.
  intros c cat ok H. rewrite like_form. assert (E : filter ok cat = filter (lsel c) cat).
  { apply filter_ext. intros s. destruct (ok s) eqn:E1, (lsel c s) eqn:E2; auto; [apply H, lsel_iff in E1; congruence|apply lsel_iff, H in E2; congruence]. }
  rewrite E. reflexivity.
Qed.
Print Assumptions C136_rows.
(** C136: a cluster of the likelihood run that gets a finite likelihood and is rich enough afterwards is usable by a percolation with the same
    settings and limit. *)
Theorem C136_chain : forall c cat out s like lam minlambda id keepid, like_setup c cat = Ok (Some out) -> In s out -> minlambda < lam ->
  usable (mk_perc (c_z0 c) (c_z1 c) (c_cushion c) minlambda (c_keepz c) keepid (c_clean c))
         (mk_seed (r_z s) (Some like) lam (r_refmag s) (r_mlim s) (r_in s) id).
Proof.
  intros c cat out s like lam ml id keepid E Hs Hl. rewrite like_form in E.
  assert (I : In s (filter (lsel c) cat)) by (destruct (filter (lsel c) cat); [discriminate|]; injection E as <-; exact Hs).
  apply filter_In in I. destruct I as [_ I]. apply lsel_iff in I. destruct I as (R & P & M & C). unfold usable, in_range. cbn [p_keepz p_z0 p_z1 p_cushion p_minlambda p_clean s_z s_like s_lambda s_refmag s_mlim s_in].
  split; [|eauto 6]. destruct (c_keepz c); [|exact R]. destruct R as (R1 & R2 & R3). repeat split; [exact R1| |exact R3]. lra.
Qed.
Print Assumptions C136_chain.
(** C136, for ranges from 0.05 up: keeping redshifts does not lose a cluster of the configured range. *)
Theorem C136_cushion_partial : forall z0 z1 cu clean s, 0 <= cu -> 5 # 100 <= z0 -> likely (mkLC z0 z1 cu false clean) s -> likely (mkLC z0 z1 cu true clean) s.
Proof. intros z0 z1 cu clean s Hc Hz (R & H). split; [|exact H]. cbn [c_keepz c_z0 c_z1 c_cushion] in *. lra. Qed.
Print Assumptions C136_cushion_partial.
(** Finding: the lower end of the widened range is never below 0.05, so for a range that starts lower, keeping the redshifts of the
    seeds loses the clusters between the configured start and 0.05 instead of adding some. *)
Theorem C136_cushion_refuted : forall z0 z1 cu, z0 < 5 # 100 -> z0 < z1 -> exists s, likely (mkLC z0 z1 cu false false) s /\ like_setup (mkLC z0 z1 cu true false) [s] = Ok None.
Proof.
  intros z0 z1 cu H0 H1. assert (E : exists z, z0 < z /\ z < z1 /\ z <= 5 # 100).
  { destruct (Qlt_le_dec z1 (5 # 100)); [exists ((z0 + z1) / 2); repeat split; [apply Qlt_shift_div_l|apply Qlt_shift_div_r|apply Qle_shift_div_r]; lra|].
    exists ((z0 + (5 # 100)) / 2). repeat split; [apply Qlt_shift_div_l|apply Qlt_shift_div_r|apply Qle_shift_div_r]; lra. }
  destruct E as (z & A & B & C). exists (mkLR z 1 0 1 true). split.
  - unfold likely. cbn. repeat split; (assumption || lra || discriminate).
  - rewrite like_form. cbn [filter]. destruct (lsel _ _) eqn:X; [|reflexivity]. exfalso. apply lsel_iff in X. destruct X as ((_ & X & _) & _). cbn [r_z] in X. lra.
Qed.
Print Assumptions C136_cushion_refuted.
Example C136_ex : like_setup (mkLC (1 # 10) (9 # 10) (5 # 100) true true) [mkLR (7 # 100) 20 19 20 true; mkLR (5 # 10) 20 19 20 false; mkLR (93 # 100) 20 19 20 true; mkLR (1 # 20) 20 19 20 true; mkLR (1 # 2) 20 21 20 true] =
  Ok (Some [mkLR (7 # 100) 20 19 20 true; mkLR (93 # 100) 20 19 20 true]).
Proof. reflexivity. Qed.
