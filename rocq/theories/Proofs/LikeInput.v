(** Proofs about the clusters that enter the likelihood run. *)
From Coq Require Import QArith.
From Verif.Base Require Import Py PyLemmas.
From Verif.Model Require Import LikeInput.
From Verif.Spec Require Import LikeInput.
From Coq Require Import Lqa Lia List. Import ListNotations.
Local Open Scope Q_scope.

Definition lsel (c : lcfg) (s : lrow) : bool :=
  (Qlt_bool (fst (range_of c)) (r_z s) && Qlt_bool (r_z s) (snd (range_of c)) && Qlt_bool 0 (r_lambda s)) && Qlt_bool (r_refmag s) (r_mlim s) && (if c_clean c then r_in s else true).
Lemma lsel_iff c s : lsel c s = true <-> likely c s.
Proof.
  unfold lsel, likely, range_of. rewrite !Bool.andb_true_iff, !Qlt_bool_iff. destruct (c_keepz c); cbn [fst snd].
  - destruct (Qlt_bool (5 # 100) (c_z0 c - c_cushion c)) eqn:E; [apply Qlt_bool_iff in E|apply Qlt_bool_false in E]; destruct (c_clean c), (r_in s); intuition (try lra; try discriminate).
  - destruct (c_clean c), (r_in s); intuition (try discriminate).
Qed.
Lemma filter_filter {A} (f g : A -> bool) l : filter g (filter f l) = filter (fun x => f x && g x) l.
Proof. induction l as [|x t IH]; cbn; [reflexivity|]. destruct (f x); cbn; [destruct (g x)|]; rewrite IH; reflexivity. Qed.
Lemma len0 {A} (l : list A) : Nat.eqb (List.length l) 0 = true <-> l = [].
Proof. destruct l; cbn; split; intros; congruence. Qed.
Lemma like_form c cat : like_setup c cat = match filter (lsel c) cat with [] => Ok None | _ => Ok (Some (filter (lsel c) cat)) end.
Proof.
  assert (F : filter (lsel c) cat = (if c_clean c then filter r_in (filter (fun s => Qlt_bool (r_refmag s) (r_mlim s)) (filter (fun s => Qlt_bool (fst (range_of c)) (r_z s) && Qlt_bool (r_z s) (snd (range_of c)) && Qlt_bool 0 (r_lambda s)) cat)) else filter (fun s => Qlt_bool (r_refmag s) (r_mlim s)) (filter (fun s => Qlt_bool (fst (range_of c)) (r_z s) && Qlt_bool (r_z s) (snd (range_of c)) && Qlt_bool 0 (r_lambda s)) cat))).
  { unfold lsel. destruct (c_clean c); rewrite !filter_filter; apply filter_ext; intros s; rewrite ?Bool.andb_true_r, ?Bool.andb_assoc; reflexivity. }
  unfold like_setup. rewrite F. clear F. destruct (Nat.eqb _ 0) eqn:E1.
  - apply len0 in E1. rewrite E1. cbn [filter]. destruct (c_clean c); reflexivity.
  - destruct (Nat.eqb (List.length (filter (fun s => Qlt_bool (r_refmag s) (r_mlim s)) _)) 0) eqn:E2.
    + apply len0 in E2. rewrite E2. cbn [filter]. destruct (c_clean c); reflexivity.
    + destruct (c_clean c); cbn [andb].
      * destruct (filter r_in _); reflexivity.
      * apply Bool.not_true_iff_false in E2. rewrite len0 in E2. destruct (filter (fun s => Qlt_bool (r_refmag s) (r_mlim s)) _); [congruence|reflexivity].
Qed.
