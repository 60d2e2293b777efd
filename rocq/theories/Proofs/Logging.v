From Coq Require Import String Ascii.
From Verif.Base Require Import Py PyLemmas.
From Verif.Model Require Import Names Logging.
From Verif.Spec Require Import Logging.
From Verif.Proofs Require Import RunAll.
From Coq Require Import Lia List. Import ListNotations.

Lemma logger_eqb_refl l : logger_eqb l l = true.
Proof. destruct l; cbn; [apply Z.eqb_refl|reflexivity]. Qed.
Lemma logger_eqb_eq a b : logger_eqb a b = true <-> a = b.
Proof. destruct a, b; cbn; try (split; congruence). rewrite Z.eqb_eq. split; congruence. Qed.

Lemma play_app w a b : play w (a ++ b) = match play w a with (w1, Ok _) => play w1 b | (w1, Err e) => (w1, Err e) end.
Proof. revert w. induction a as [|o a IH]; intros w; cbn [app play]; [reflexivity|]. destruct (step w o) as [w1 [u|e]]; [apply IH|reflexivity]. Qed.

(** messages only append to the files of their loggers *)
Lemma play_messages os : forall w, exists w', play w (messages os) = (w', Ok tt) /\ confs w' = confs w /\ handlers w' = handlers w /\
  forall f, logs w' f = logs w f ++ List.concat (map (fun p => repeat (snd p) (count_str f (handlers w (c_logger (confs w (fst p)))))) os).
Proof.
  induction os as [|[i m] os IH]; intros w.
  - exists w. cbn. repeat split. intros f. rewrite app_nil_r. reflexivity.
  - cbn [messages map play step fst snd]. destruct (IH (info w i m)) as (w' & E & C & H & L). exists w'. split; [exact E|]. split; [rewrite C; reflexivity|]. split; [rewrite H; reflexivity|].
    intros f. rewrite L. cbn [info logs confs handlers List.concat map fst snd]. rewrite <- app_assoc. reflexivity.
Qed.
Lemma count_one f : count_str f [f] = 1.
Proof. unfold count_str. cbn. destruct (list_eq_dec ascii_dec f f); [reflexivity|contradiction]. Qed.
Lemma count_other f h : h <> f -> count_str f [h] = 0.
Proof. intros N. unfold count_str. cbn. destruct (list_eq_dec ascii_dec h f); [contradiction|reflexivity]. Qed.
Lemma count_two f h : count_str f [h; h] = 2 * count_str f [h].
Proof. unfold count_str. cbn. destruct (list_eq_dec ascii_dec h f); reflexivity. Qed.
Lemma sent_concat loggers hs l f os : (forall k, count_str f (hs k) = if logger_eqb k l then 1 else 0) ->
  List.concat (map (fun p => repeat (snd p) (count_str f (hs (loggers (fst p))))) os) = sent loggers l os.
Proof.
  intros H. induction os as [|[i m] os IH]; cbn [map List.concat sent fst snd]; [reflexivity|]. rewrite H, IH. destruct (logger_eqb _ _); reflexivity.
Qed.
Lemma none_concat loggers (hs : option Z -> list str) f os : (forall k, count_str f (hs k) = 0) ->
  List.concat (map (fun p : nat * Z => repeat (snd p) (count_str f (hs (loggers (fst p))))) os) = [].
Proof. intros H. induction os as [|[i m] os IH]; cbn [map List.concat]; [reflexivity|]. rewrite H, IH. reflexivity. Qed.
Lemma app_tail_inj {A} (a b c d : list A) : a ++ b ++ c = a ++ d ++ c -> b = d.
Proof. intros H. apply app_inv_head in H. apply app_inv_tail in H. exact H. Qed.
