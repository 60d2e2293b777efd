From Coq Require Import QArith.
From Verif.Base Require Import Py PyLemmas.
From Verif.Model Require Import Galfile Richness CentRec.
From Verif.Spec Require Import CentRec.
From Verif.Proofs Require Import Ingest Richness Consolidate.
From Coq Require Import Lia List. Import ListNotations.

Lemma filled_len {A} slots (d : A) vals : (List.length vals <= slots)%nat -> List.length (filled slots d vals) = slots.
Proof. intros H. unfold filled. rewrite app_length, repeat_length. lia. Qed.
Lemma filled_in {A} slots (d : A) vals k : (k < List.length vals)%nat -> nth_error (filled slots d vals) k = nth_error vals k.
Proof. intros H. unfold filled. apply nth_error_app1, H. Qed.
Lemma filled_out {A} slots (d : A) vals k : (List.length vals <= k < slots)%nat -> nth_error (filled slots d vals) k = Some d.
Proof.
  intros H. unfold filled. rewrite nth_error_app2 by lia. apply nth_error_repeat. lia.
Qed.
Lemma assign_ok {A} n (vals : list A) : List.length vals = n -> assign n vals = Ok vals.
Proof. intros H. unfold assign. rewrite H, Nat.eqb_refl. reflexivity. Qed.
Lemma py_index_pos {A} (l : list A) i : py_index l (Z.of_nat i) = match nth_error l i with Some x => Ok x | None => Err IndexError end.
Proof.
  unfold py_index. destruct (Z.ltb_spec (Z.of_nat i) 0); [lia|]. destruct (Z.ltb_spec (Z.of_nat i) 0); [lia|]. cbn [orb]. rewrite Nat2Z.id.
  destruct (Z.leb_spec (Z.of_nat (List.length l)) (Z.of_nat i)); [|reflexivity]. rewrite (proj2 (nth_error_None l i)) by lia. reflexivity.
Qed.
Lemma py_index_last {A} (l : list A) x : py_index (l ++ [x]) (-1) = Ok x.
Proof.
  unfold py_index. rewrite app_length. cbn [List.length Z.ltb Z.compare]. replace (-1 + Z.of_nat (List.length l + 1))%Z with (Z.of_nat (List.length l)) by lia.
  destruct (Z.ltb_spec (Z.of_nat (List.length l)) 0); [lia|]. destruct (Z.leb_spec (Z.of_nat (List.length l + 1)) (Z.of_nat (List.length l))); [lia|]. cbn [orb]. rewrite Nat2Z.id, nth_error_app2, Nat.sub_diag by lia. reflexivity.
Qed.
Lemma mapM_app {A B} (f : A -> res B) a b ra rb : mapM f a = Ok ra -> mapM f b = Ok rb -> mapM f (a ++ b) = Ok (ra ++ rb).
Proof.
  revert ra. induction a as [|x a IH]; intros ra Ha Hb; cbn in *; [injection Ha as <-; exact Hb|]. destruct (f x); [|discriminate]. cbn [bind] in *. destruct (mapM f a) as [r|]; [|discriminate]. injection Ha as <-. rewrite (IH r eq_refl Hb). reflexivity.
Qed.
Lemma mapM_repeat {A B} (f : A -> res B) x y n : f x = Ok y -> mapM f (repeat x n) = Ok (repeat y n).
Proof. intros H. induction n as [|n IH]; cbn; [reflexivity|]. rewrite H, IH. reflexivity. Qed.
Lemma ids_of gals use gs : np_take gals use = Ok gs -> mapM (fun i => do g <- py_index gals i; Ok (g_id g)) (map Z.of_nat use) = Ok (map g_id gs).
Proof.
  revert gs. induction use as [|i use IH]; intros gs H; cbn in *; [injection H as <-; reflexivity|]. rewrite py_index_pos. destruct (nth_error gals i) as [g|]; [|discriminate]. cbn [bind] in *.
  destruct (np_take gals use) as [r|]; [|discriminate]. injection H as <-. rewrite (IH r eq_refl). reflexivity.
Qed.
Lemma take_len {A} (l : list A) use gs : np_take l use = Ok gs -> List.length gs = List.length use.
Proof. revert gs. induction use as [|i use IH]; intros gs H; cbn in *; [injection H as <-; reflexivity|]. destruct (nth_error l i); [|discriminate]. cbn in H. destruct (np_take l use) as [r|]; [|discriminate]. injection H as <-. cbn. rewrite (IH r eq_refl). reflexivity. Qed.
Lemma take_nth {A} (l : list A) use gs k i : np_take l use = Ok gs -> nth_error use k = Some i -> nth_error gs k = nth_error l i.
Proof.
  revert gs k. induction use as [|j use IH]; intros gs k H Hk; cbn in *; [destruct k; discriminate|]. destruct (nth_error l j) as [x|] eqn:E; [|discriminate]. cbn in H. destruct (np_take l use) as [r|] eqn:R; [|discriminate]. injection H as <-.
  destruct k as [|k]; cbn in *; [congruence|]. exact (IH r k eq_refl Hk).
Qed.

Lemma marks_len l is n : List.length (fold_left (fun l i => set_nth l (Z.to_nat (wrap n i)) true) is l) = List.length l.
Proof. revert l. induction is as [|i is IH]; intros l; cbn; [reflexivity|]. rewrite IH. apply set_nth_length. Qed.
Lemma marks l is n j : (j < List.length l)%nat -> nth_error (fold_left (fun l i => set_nth l (Z.to_nat (wrap n i)) true) is l) j =
  Some (orb (nth j l false) (existsb (fun i => Nat.eqb (Z.to_nat (wrap n i)) j) is)).
Proof.
  revert l. induction is as [|i is IH]; intros l H; cbn [fold_left existsb].
  - rewrite Bool.orb_false_r. apply nth_error_nth'. exact H.
  - rewrite IH by (rewrite set_nth_length; exact H). f_equal. destruct (Nat.eqb_spec (Z.to_nat (wrap n i)) j) as [<-|N].
    + rewrite (nth_error_nth (set_nth l _ true) _ false (set_nth_same l _ true H)). cbn. rewrite Bool.orb_true_r. reflexivity.
    + cbn [orb]. f_equal. pose proof (set_nth_other l (Z.to_nat (wrap n i)) j true N) as E. destruct (nth_error l j) as [b|] eqn:Eb; [|apply nth_error_None in Eb; lia]. rewrite (nth_error_nth _ _ false E), (nth_error_nth _ _ false Eb). reflexivity.
Qed.

(** the row that is recorded after CenteringWcenZred *)
Lemma recorded zscan slots gals x use ps old c : np_take (gals ++ [x]) use <> Err IndexError -> use <> [] -> (List.length use <= slots)%nat -> List.length ps = List.length use ->
  fresh slots (gals ++ [x]) old -> wcen_cent slots (gals ++ [x]) use ps = Ok c ->
  exists g0 gs, np_take (gals ++ [x]) use = Ok (g0 :: gs) /\
    record_centres zscan slots (gals ++ [x]) c old =
      Ok (mkCrow (g_pos g0) (g_mag g0) (filled slots (g_id x) (map g_id (g0 :: gs))) (filled slots nowhere (map g_pos (g0 :: gs))) (filled slots 0%Q ps) (List.length use)
           (if zscan then r_cand old else fold_left (fun l i => set_nth l (Z.to_nat (wrap (List.length (gals ++ [x])) i)) true) (filled slots (-1)%Z (map Z.of_nat use)) (r_cand old))).
Proof.
  intros _ Hn Hs Hp (F1 & F2) H. unfold wcen_cent in H. destruct (np_take (gals ++ [x]) use) as [gs|] eqn:Eg; [|discriminate]. cbn [bind] in H. injection H as <-.
  pose proof (take_len _ _ _ Eg) as Lg. destruct gs as [|g0 gs]; [destruct use; [congruence|discriminate]|]. exists g0, gs. split; [reflexivity|].
  destruct use as [|i0 use]; [congruence|]. unfold record_centres. cbn [ce_pos ce_index ce_p ce_ngood].
  assert (P0 : py_index (filled slots nowhere (map g_pos (g0 :: gs))) 0 = Ok (g_pos g0)) by (rewrite (py_index_pos _ 0); reflexivity).
  assert (I0 : py_index (filled slots (-1)%Z (map Z.of_nat (i0 :: use))) 0 = Ok (Z.of_nat i0)) by (rewrite (py_index_pos _ 0); reflexivity).
  rewrite P0, I0. cbn [bind]. destruct (Z.leb_spec 0 (Z.of_nat i0)); [|lia]. rewrite py_index_pos. pose proof (take_nth _ _ _ 0 i0 Eg eq_refl) as G0. cbn [nth_error] in G0. rewrite <- G0. cbn [bind].
  assert (IDS : mapM (fun i => do g <- py_index (gals ++ [x]) i; Ok (g_id g)) (filled slots (-1)%Z (map Z.of_nat (i0 :: use))) = Ok (filled slots (g_id x) (map g_id (g0 :: gs)))).
  { unfold filled. rewrite !map_length, Lg. apply mapM_app; [apply ids_of, Eg|]. apply mapM_repeat. rewrite py_index_last. reflexivity. }
  rewrite IDS. cbn [bind]. rewrite (assign_ok slots (filled slots (g_id x) (map g_id (g0 :: gs)))) by (apply filled_len; rewrite map_length; lia). cbn [bind].
  rewrite (assign_ok slots (filled slots nowhere (map g_pos (g0 :: gs)))) by (apply filled_len; rewrite map_length; lia). cbn [bind].
  rewrite (assign_ok slots (filled slots 0%Q ps)) by (apply filled_len; lia). cbn [bind]. reflexivity.
Qed.
