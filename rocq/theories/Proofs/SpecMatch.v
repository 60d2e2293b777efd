From Coq Require Import Reals Lra.
From Verif.Base Require Import Py PyLemmas.
From Verif.Model Require Import BkgGen Redmagic SpecMatch.
From Verif.Spec Require Import SpecMatch.
From Verif.Proofs Require Import BkgGen Radii.
From Coq Require Import Lia List.
Import ListNotations.
Local Open Scope R_scope.

Lemma put_length zs j z : List.length (put zs j z) = List.length zs.
Proof. revert j. induction zs as [|x t IH]; intros [|j]; cbn; auto. Qed.
Lemma put_nth zs j z i : nth_error (put zs j z) i =
  if Nat.eqb i j then match nth_error zs i with Some _ => Some z | None => None end else nth_error zs i.
Proof.
  revert j i. induction zs as [|x t IH]; intros [|j] [|i]; cbn; auto.
  - destruct (Nat.eqb i j); reflexivity.
Qed.

Section S.
Variable f : spectrum -> option nat.
Definition stp (zs : list R) (s : spectrum) := match f s with Some j => put zs j (s_z s) | None => zs end.
Lemma fold_len use zs : List.length (fold_left stp use zs) = List.length zs.
Proof.
  revert zs. induction use as [|s u IH]; intros zs; cbn; [reflexivity|]. rewrite IH. unfold stp.
  destruct (f s); [apply put_length|reflexivity].
Qed.
(** the last one that hits stays *)
Lemma fold_none use zs i : (forall s, In s use -> f s <> Some i) -> nth_error (fold_left stp use zs) i = nth_error zs i.
Proof.
  revert zs. induction use as [|s u IH]; intros zs H; cbn; [reflexivity|].
  rewrite IH by (intros; apply H; right; assumption). unfold stp. destruct (f s) as [j|] eqn:E; [|reflexivity].
  rewrite put_nth. destruct (Nat.eqb_spec i j) as [->|]; [|reflexivity]. exfalso. apply (H s); [left; reflexivity|exact E].
Qed.
Lemma fold_last u s v zs i : (i < List.length zs)%nat -> f s = Some i -> (forall t, In t v -> f t <> Some i) ->
  nth_error (fold_left stp (u ++ s :: v) zs) i = Some (s_z s).
Proof.
  intros L E N. rewrite fold_left_app. cbn [fold_left]. rewrite fold_none by exact N. unfold stp at 1. rewrite E.
  rewrite put_nth, Nat.eqb_refl. destruct (nth_error _ i) eqn:X; [reflexivity|]. apply nth_error_None in X. rewrite fold_len in X. lia.
Qed.
Lemma split_last use i : (forall s, In s use -> f s <> Some i) \/
  exists u s v, use = u ++ s :: v /\ f s = Some i /\ forall t, In t v -> f t <> Some i.
Proof.
  induction use as [|s u IH] using rev_ind; [left; intros s []|].
  destruct (f s) as [j|] eqn:E.
  - destruct (Nat.eq_dec j i) as [->|Ne].
    + right. exists u, s, []. repeat split; [exact E|intros t []].
    + destruct IH as [N|(a & b & c & -> & E1 & N)].
      * left. intros t I. apply in_app_or in I. destruct I as [I|[<-|[]]]; [apply N, I|congruence].
      * right. exists a, b, (c ++ [s]). rewrite <- app_assoc. repeat split; [exact E1|].
        intros t I. apply in_app_or in I. destruct I as [I|[<-|[]]]; [apply N, I|congruence].
  - destruct IH as [N|(a & b & c & -> & E1 & N)].
    + left. intros t I. apply in_app_or in I. destruct I as [I|[<-|[]]]; [apply N, I|congruence].
    + right. exists a, b, (c ++ [s]). rewrite <- app_assoc. repeat split; [exact E1|].
      intros t I. apply in_app_or in I. destruct I as [I|[<-|[]]]; [apply N, I|congruence].
Qed.
End S.

Section M.
Variables (dist : R * R -> R * R -> R) (rad : R) (near : list (R * R) -> R -> R -> option nat).
Hypothesis C : closest dist rad near.
Variable gals : list gal.
Let pos := map (fun g => (g_ra g, g_dec g)) gals.
Definition hit (s : spectrum) : option nat := near pos (s_ra s) (s_dec s).

Lemma hit_of s i : hit s = Some i -> spectrum_of dist rad gals i s.
Proof.
  unfold hit. intros E. pose proof (C pos (s_ra s) (s_dec s)) as H. rewrite E in H. destruct H as (p & Np & D & M).
  unfold pos in Np. rewrite nth_error_map in Np. destruct (nth_error gals i) as [g|] eqn:G; [|discriminate].
  injection Np as <-. exists g. split; [exact G|]. split; [exact D|]. intros h I. apply (M (at_gal h)).
  unfold pos. apply (in_map (fun g => (g_ra g, g_dec g))), I.
Qed.
Lemma hit_lt s i : hit s = Some i -> (i < List.length gals)%nat.
Proof. intros E. destruct (hit_of s i E) as (g & G & _). apply nth_error_Some. congruence. Qed.
Lemma only_hit s i : only_of dist rad gals i s -> hit s = Some i.
Proof.
  intros (g & G & D & O). unfold hit. pose proof (C pos (s_ra s) (s_dec s)) as H.
  assert (I : In (at_gal g) pos) by (apply (in_map (fun g => (g_ra g, g_dec g))), nth_error_In with i, G).
  destruct (near pos (s_ra s) (s_dec s)) as [j|].
  - destruct H as (p & Np & D1 & M). unfold pos in Np. rewrite nth_error_map in Np.
    destruct (nth_error gals j) as [h|] eqn:E; [|discriminate]. injection Np as <-.
    destruct (Nat.eq_dec j i) as [->|Ne]; [reflexivity|]. exfalso. specialize (O j h E Ne). specialize (M _ I).
    unfold at_spec, at_gal in *. lra.
  - exfalso. specialize (H _ I). unfold at_spec in D. lra.
Qed.
Lemma zs_len e specs : List.length (matched_zspec near e specs gals) = List.length gals.
Proof. unfold matched_zspec. change (fun zs s => _) with (stp hit). rewrite fold_len. apply repeat_length. Qed.

Lemma filt_split (e : R) specs u s v : filter (fun s => Rltb (s_zerr s) e) specs = u ++ s :: v ->
  exists a b, specs = a ++ s :: b /\ filter (fun s => Rltb (s_zerr s) e) b = v.
Proof.
  revert u. induction specs as [|x t IH]; intros u H; cbn in H; [destruct u; discriminate|].
  destruct (Rltb (s_zerr x) e) eqn:E.
  - destruct u as [|y u]; cbn in H; injection H as H1 H2.
    + subst. exists [], t. split; reflexivity.
    + destruct (IH u H2) as (a & b & -> & F). exists (x :: a), b. split; [reflexivity|exact F].
  - destruct (IH u H) as (a & b & -> & F). exists (x :: a), b. split; [reflexivity|exact F].
Qed.

Lemma zs_cases e specs i : (i < List.length gals)%nat ->
  (nth_error (matched_zspec near e specs gals) i = Some 0 /\ forall s, In s specs -> s_zerr s < e -> hit s <> Some i) \/
  exists a s b, specs = a ++ s :: b /\ s_zerr s < e /\ hit s = Some i /\
    nth_error (matched_zspec near e specs gals) i = Some (s_z s) /\
    forall t, In t b -> s_zerr t < e -> hit t <> Some i.
Proof.
  intros L. unfold matched_zspec. change (fun zs s => _) with (stp hit) at 1 2.
  destruct (split_last hit (filter (fun s => Rltb (s_zerr s) e) specs) i) as [N|(u & s & v & E & H & N)].
  - left. split.
    + rewrite fold_none by exact N. apply nth_error_repeat, L.
    + intros s I S1. apply N, filter_In. split; [exact I|]. apply Rltb_iff, S1.
  - right. destruct (filt_split e specs u s v E) as (a & b & E2 & F). exists a, s, b. split; [exact E2|].
    assert (I : In s (filter (fun s => Rltb (s_zerr s) e) specs)) by (rewrite E; apply in_or_app; right; left; reflexivity).
    apply filter_In in I. destruct I as [_ I]. apply Rltb_iff in I. split; [exact I|]. split; [exact H|]. split.
    + rewrite E. apply fold_last; [rewrite repeat_length; exact L|exact H|exact N].
    + intros t J T. apply N. rewrite <- F. apply filter_In. split; [exact J|]. apply Rltb_iff, T.
Qed.
End M.
