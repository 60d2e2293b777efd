(** Property C163 (configuration.py: logging to files). *)
From Coq Require Import String Ascii.
From Verif.Base Require Import Py PyLemmas.
From Verif.Model Require Import Names Logging.
From Verif.Spec Require Import Logging.
From Verif.Proofs Require Import RunAll Logging.
From Coq Require Import Lia List. Import ListNotations.

(** C163.  Started once and stopped once: the log file receives exactly the messages of the logger sent in between, in order and
    once each; no other file receives anything, and messages after the stop go nowhere.  (Missing: logging started again, or
    started by two configurations, theorems below.) *)
Theorem C163_window_partial : forall w i fn f inside after, ready w i -> (forall l, l <> c_logger (confs w i) -> handlers w l = []) ->
  log_file (confs w i) fn = Ok f ->
  exists w', play w (Start i fn :: messages inside ++ Stop i :: messages after) = (w', Ok tt) /\
    logs w' f = logs w f ++ sent (fun k => c_logger (confs w k)) (c_logger (confs w i)) inside /\
    (forall f', f' <> f -> logs w' f' = logs w f').
Proof.
  intros w i fn f inside after (P & S & H) HO F. cbn [play step]. unfold start_file_logging. rewrite S, P, F, H. cbn [app].
  set (w1 := set_conf _ _ _). rewrite play_app. destruct (play_messages inside w1) as (w2 & E2 & C2 & H2 & L2). rewrite E2. cbn [play step].
  destruct (play_messages after (stop_file_logging w2 i)) as (w3 & E3 & C3 & H3 & L3). exists w3. split; [exact E3|].
  assert (LG : forall k, c_logger (confs w1 k) = c_logger (confs w k)). { intros k. cbn. destruct (Nat.eqb_spec k i) as [->|]; reflexivity. }
  assert (HS : forall l, handlers (stop_file_logging w2 i) l = []).
  { intros l. unfold stop_file_logging. cbn [set_handlers handlers]. destruct (logger_eqb l _) eqn:E; [reflexivity|]. rewrite H2. cbn. rewrite C2 in E. rewrite LG in E. rewrite E. apply HO. intros ->. rewrite logger_eqb_refl in E. discriminate. }
  assert (A : forall f', logs w3 f' = logs w2 f'). { intros f'. rewrite L3. cbn [stop_file_logging set_handlers logs]. rewrite (none_concat (fun k => c_logger (confs (stop_file_logging w2 i) k))); [apply app_nil_r|]. intros l. rewrite HS. reflexivity. }
  assert (HW : forall l, handlers w1 l = if logger_eqb l (c_logger (confs w i)) then [f] else []). { intros l. cbn. destruct (logger_eqb l _) eqn:E; [reflexivity|]. apply HO. intros ->. rewrite logger_eqb_refl in E. discriminate. }
  split.
  - rewrite A, L2. change (logs w1 f) with (logs w f). f_equal. rewrite (sent_concat (fun k => c_logger (confs w1 k)) (handlers w1) (c_logger (confs w i))).
    + clear -LG. induction inside as [|[k m] t IH]; cbn [sent]; [reflexivity|]. rewrite LG, IH. reflexivity.
    + intros l. rewrite HW. destruct (logger_eqb _ _); [apply count_one|reflexivity].
  - intros f' N. rewrite A, L2. change (logs w1 f') with (logs w f'). rewrite (none_concat (fun k => c_logger (confs w1 k))); [apply app_nil_r|]. intros l. rewrite HW. destruct (logger_eqb _ _); [apply count_other; congruence|reflexivity].
Qed.
Print Assumptions C163_window_partial.

(** C163.  Without a name the file is that of the first pixel: for one output name, two configurations log to the same file exactly
    if their first pixels are the same. *)
Theorem C163_names : forall c c' p p' ps ps' f f', c_base c = c_base c' -> c_hpix c = p :: ps -> c_hpix c' = p' :: ps' -> (0 <= p)%Z -> (0 <= p')%Z ->
  log_file c None = Ok f -> log_file c' None = Ok f' -> (f = f' <-> p = p').
Proof.
  intros c c' p p' ps ps' f f' B H H' P P' E E'. unfold log_file in E, E'. rewrite H in E. rewrite H' in E'. assert (X : f = s_ "redmapper_" ++ c_base c ++ s_ "_" ++ fmt 4 p ++ s_ ".log") by congruence.
  assert (X' : f' = s_ "redmapper_" ++ c_base c' ++ s_ "_" ++ fmt 4 p' ++ s_ ".log") by congruence.
  rewrite X, X', B. clear -P P'. split; [|congruence].
  intros X. apply app_inv_head in X. apply app_inv_head in X. apply app_inv_head in X. apply app_inv_tail in X. apply (fmt_inj 4); assumption.
Qed.
Print Assumptions C163_names.

(** C163.  A configuration set to print only never opens a file; one that has started does not start twice, nor do its copies. *)
Theorem C163_once : forall w i fn, (c_print (confs w i) = true -> start_file_logging w i fn = (w, Ok tt)) /\
  forall w1 u j, start_file_logging w i fn = (w1, Ok u) -> c_print (confs w i) = false ->
    forall gn, start_file_logging w1 i gn = (w1, Ok tt) /\
    let w2 := fst (step w1 (Copy i j)) in start_file_logging w2 j gn = (w2, Ok tt) /\ handlers w2 (c_logger (confs w2 j)) = handlers w1 (c_logger (confs w1 i)).
Proof.
  intros w i fn. split.
  - intros P. unfold start_file_logging. rewrite P. destruct (c_started _); reflexivity.
  - intros w1 u j H P gn. assert (S : c_started (confs w1 i) = true).
    { unfold start_file_logging in H. rewrite P in H. destruct (c_started (confs w i)) eqn:E; [congruence|]. destruct (log_file _ _); [|discriminate]. injection H as <- _. cbn. rewrite Nat.eqb_refl. reflexivity. }
    split; [unfold start_file_logging; rewrite S; reflexivity|]. cbn [step fst]. unfold start_file_logging. cbn. rewrite Nat.eqb_refl, S. auto.
Qed.
Print Assumptions C163_once.

(** Finding: the flag is never taken down, so logging that was stopped cannot be started again: the second start returns without
    effect and all later messages are lost. *)
Theorem C163_restart_refuted : forall w i fn gn f inside later, ready w i -> log_file (confs w i) fn = Ok f ->
  (forall l, l <> c_logger (confs w i) -> handlers w l = []) ->
  exists w', play w (Start i fn :: messages inside ++ [Stop i; Start i gn] ++ messages later) = (w', Ok tt) /\
    logs w' f = logs w f ++ sent (fun k => c_logger (confs w k)) (c_logger (confs w i)) inside /\
    forall g, g <> f -> logs w' g = logs w g.
Proof.
  intros w i fn gn f inside later R F HO. destruct (C163_window_partial w i fn f inside later R HO F) as (w' & E & A & B). exists w'. split; [|split; assumption].
  rewrite <- E. cbn [play step]. destruct (start_file_logging w i fn) as [w1 [u|e]] eqn:E1; [|reflexivity].
  rewrite !play_app. destruct (play_messages inside w1) as (w2 & E2 & C2 & H2 & L2). rewrite E2. cbn [app play step].
  assert (S : c_started (confs (stop_file_logging w2 i) i) = true).
  { destruct R as (P & S & H). unfold start_file_logging in E1. rewrite S, P, F in E1. injection E1 as <- _. cbn [stop_file_logging set_handlers confs]. rewrite C2. cbn. rewrite Nat.eqb_refl. reflexivity. }
  unfold start_file_logging. rewrite S. reflexivity.
Qed.
Print Assumptions C163_restart_refuted.

(** Finding: stopping removes every handler of the logger.  A second configuration with the same logger (all configurations without
    exactly one pixel share one) loses its log file too. *)
Theorem C163_stop_refuted : forall w i j os, c_logger (confs w i) = c_logger (confs w j) -> (forall p, In p os -> c_logger (confs w (fst p)) = c_logger (confs w j)) ->
  exists w', play w (Stop i :: messages os) = (w', Ok tt) /\ forall f, logs w' f = logs w f.
Proof.
  intros w i j os E HO. cbn [play step]. destruct (play_messages os (stop_file_logging w i)) as (w' & E' & _ & _ & L). exists w'. split; [exact E'|]. intros f. rewrite L. cbn [stop_file_logging set_handlers logs].
  replace (List.concat _) with (@nil Z); [apply app_nil_r|]. symmetry. clear L E'. induction os as [|p os IH]; cbn [map List.concat]; [reflexivity|]. rewrite IH by (intros; apply HO; right; assumption).
  cbn [stop_file_logging set_handlers handlers confs]. rewrite (HO p (or_introl eq_refl)), E, logger_eqb_refl. reflexivity.
Qed.
Print Assumptions C163_stop_refuted.

(** Finding: two configurations that log to the same file (same output name and pixel) write every message twice. *)
Theorem C163_twice_refuted : forall w i j fn gn f m, ready w i -> ready w j -> i <> j -> c_logger (confs w i) = c_logger (confs w j) ->
  log_file (confs w i) fn = Ok f -> log_file (confs w j) gn = Ok f ->
  exists w', play w [Start i fn; Start j gn; Info i m] = (w', Ok tt) /\ logs w' f = logs w f ++ [m; m].
Proof.
  intros w i j fn gn f m (P & S & H) (P' & S' & H') N E F F'. cbn [play step]. unfold start_file_logging at 1. rewrite S, P, F, H. cbn [app].
  set (w1 := set_conf _ _ _). assert (Cj : confs w1 j = confs w j). { cbn. destruct (Nat.eqb_spec j i); [congruence|reflexivity]. }
  unfold start_file_logging. rewrite Cj, S', P', F'. eexists. split; [reflexivity|]. cbn [info logs set_conf set_handlers confs handlers].
  change (logs w1 f) with (logs w f). f_equal.
  assert (Hw : handlers w1 (c_logger (confs w j)) = [f]). { cbn. rewrite E, logger_eqb_refl. reflexivity. } rewrite Hw.
  destruct (Nat.eqb_spec i j); [congruence|]. assert (Ci : c_logger (confs w1 i) = c_logger (confs w j)). { cbn. rewrite Nat.eqb_refl. exact E. } rewrite Ci, logger_eqb_refl. cbn [app]. rewrite count_two, count_one. reflexivity.
Qed.
Print Assumptions C163_twice_refuted.

(** Finding: with no pixel configured (the whole sky) the default name cannot be made: the first line of a run raises IndexError
    unless messages are only printed. *)
Theorem C163_nopix_refuted : forall w i, c_started (confs w i) = false -> c_hpix (confs w i) = [] ->
  (start_file_logging w i None = (w, Err IndexError) <-> c_print (confs w i) = false).
Proof.
  intros w i S H. unfold start_file_logging. rewrite S. destruct (c_print (confs w i)); [split; discriminate|]. unfold log_file. rewrite H. split; reflexivity.
Qed.
Print Assumptions C163_nopix_refuted.

Definition w0 : world := mkW (fun _ => mkConf None true false [] []) (fun _ => []) (fun _ => []).
Example C163_ex : exists w', play w0 [New 0 false (s_ "a") [23%Z]; New 1 false (s_ "a") [1%Z; 2%Z]; Start 0 None; Info 0 5; Info 1 6; Start 1 None; Info 1 7; Stop 0; Info 0 8; Info 1 9; Start 0 None; Info 0 10] = (w', Ok tt) /\
  logs w' (s_ "redmapper_a_0023.log") = [5%Z] /\ logs w' (s_ "redmapper_a_0001.log") = [7%Z; 9%Z].
Proof. eexists. split; [vm_compute; reflexivity|]. split; vm_compute; reflexivity. Qed.
(** A new configuration does not log to a file, whatever logged before under its number; its logger has the name of its pixel if it has
    exactly one. *)
Theorem C163_new : forall w i p b h w', step w (New i p b h) = (w', Ok tt) ->
  c_started (confs w' i) = false /\ c_print (confs w' i) = p /\ c_base (confs w' i) = b /\ c_hpix (confs w' i) = h /\
  (forall q, c_logger (confs w' i) = Some q <-> h = [q]) /\ handlers w' = handlers w /\ logs w' = logs w /\ forall j, j <> i -> confs w' j = confs w j.
Proof.
  intros w i p b h w' E. injection E as <-. cbn. rewrite Nat.eqb_refl. cbn. repeat split; try reflexivity.
  - unfold logger_name. destruct h as [|x [|]]; try discriminate. congruence.
  - intros ->. reflexivity.
  - intros j N. apply Nat.eqb_neq in N. rewrite N. reflexivity.
Qed.
Print Assumptions C163_new.
(** Starting or stopping changes the files of one logger only: those of the configuration's own. *)
Theorem C163_own_logger : forall w i o w' r l, (exists f, o = Start i f) \/ o = Stop i -> step w o = (w', r) -> l <> c_logger (confs w i) -> handlers w' l = handlers w l.
Proof.
  intros w i o w' r l H E N. assert (K : logger_eqb l (c_logger (confs w i)) = false).
  { destruct l as [x|], (c_logger (confs w i)) as [y|]; cbn; try reflexivity; [|congruence]. apply Z.eqb_neq. congruence. }
  destruct H as [[f ->]| ->]; cbn in E.
  - unfold start_file_logging in E. destruct (c_started _); [congruence|]. destruct (c_print _); [congruence|]. destruct (log_file _ _); injection E as <- <-; cbn; [|reflexivity]. rewrite K. reflexivity.
  - injection E as <- <-. cbn. rewrite K. reflexivity.
Qed.
Print Assumptions C163_own_logger.
