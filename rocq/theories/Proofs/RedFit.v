(** Proofs about the fit of the redMaGiC cuts. *)
From Coq Require Import String Reals Lra.
From Verif.Base Require Import Py PyLemmas.
From Verif.Model Require Import BkgGen Depth RedFit.
From Verif.Model Require Redmagic.
From Verif.Spec Require Import RedFit.
From Verif.Spec Require Redmagic.
From Verif.Proofs Require Import BkgGen Solver Depth.
From Verif.Proofs Require Redmagic.
From Coq Require Import Lia List. Import ListNotations.
Local Open Scope R_scope.

Lemma filter_combine_map {A B} (f : A -> B) (p : A * B -> bool) l : filter p (combine l (map f l)) = map (fun a => (a, f a)) (filter (fun a => p (a, f a)) l).
Proof. induction l as [|a l IH]; cbn [map combine filter]; [reflexivity|]. destruct (p (a, f a)); cbn [map]; rewrite IH; reflexivity. Qed.
Lemma filter_ext' {A} (p q : A -> bool) l : (forall a, In a l -> p a = q a) -> filter p l = filter q l.
Proof. induction l as [|a l IH]; intros H; [reflexivity|]. cbn [filter]. rewrite (H a (or_introl eq_refl)), IH by (intros; apply H; right; assumption). reflexivity. Qed.
Lemma counted_raw L k cval gals : map (fun gs => s_samp (snd gs)) (filter (fkept L k cval) (combine gals (map (raw k) gals))) = counted L k cval None gals.
Proof.
  rewrite filter_combine_map, map_map. unfold counted. erewrite filter_ext'; [apply map_ext; intros g; cbn; ring|]. intros g _. unfold fkept, chicut. cbn [fst snd raw s_mstar s_z]. rewrite Rminus_0_r. reflexivity.
Qed.
Lemma counted_burned L k cval b e gals : map (fun gs => s_samp (snd gs)) (filter (fkept L k cval) (combine gals (map (burned L k b e) gals))) = counted L k cval (Some (b, e)) gals.
Proof. rewrite filter_combine_map, map_map. reflexivity. Qed.
Lemma call_counted L k gals st corr pars : map (fun gs => s_samp (snd gs)) (filter (fkept L k pars) (combine gals st)) = counted L k pars corr gals ->
  call L k gals st pars = match counted L k pars corr gals with [] => 100000000000 | s => l_bins L s + (if existsb (fun p => Rltb p (1/10)) pars then 10000 else 0) end.
Proof. intros <-. unfold call. destruct (filter _ _); reflexivity. Qed.
Lemma fst_combine {A B} (l : list A) (m : list B) : length m = length l -> map fst (combine l m) = l.
Proof. revert m. induction l as [|a l IH]; intros [|b m] H; try discriminate H; [reflexivity|]. cbn. f_equal. apply IH. cbn in H. congruence. Qed.
Lemma map_fst_combine {A B C} (f : A -> C) (l : list A) (m : list B) : length m = length l -> map (fun p => f (fst p)) (combine l m) = map f l.
Proof. intros H. rewrite <- (map_map fst f), fst_combine by exact H. reflexivity. Qed.
