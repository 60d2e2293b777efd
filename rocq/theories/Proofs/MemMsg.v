(** Lemmas on the message on memory. *)
From Coq Require Import ZArith Ascii String.
From Verif.Base Require Import Py.
From Verif.Model Require Import Names Catalog MemMsg.
From Verif.Spec Require Import MemMsg.
From Coq Require Import Lia List. Import ListNotations.
Local Open Scope list_scope.

Lemma eq_str_iff a b : eq_str a b = true <-> a = b.
Proof. unfold eq_str. destruct (list_eq_dec ascii_dec a b); split; congruence. Qed.
Lemma key_iff w k : s_ w <> [] -> (key_of k = s_ w <-> word_of w k).
Proof.
  intros W. unfold key_of, word_of. split.
  - intros H. destruct k as [|c k'] eqn:K; [cbn in H; congruence|]. assert (D : c :: k' = removelast (c :: k') ++ [last (c :: k') c]) by (apply app_removelast_last; discriminate).
    set (r := removelast (c :: k')) in *. set (z := last (c :: k') c) in *. destruct r as [|a [|b body]]; [cbn in H; congruence|cbn in H; congruence|]. exists a, b, body, z. split; [exact D|exact H].
  - intros (a & b & body & z & -> & <-). change (a :: b :: body ++ [z]) with ((a :: b :: body) ++ [z]). rewrite removelast_last. reflexivity.
Qed.
Lemma line_key w k t : s_ w <> [] -> (line_of w (k :: t) <-> key_of k = s_ w).
Proof. intros W. rewrite (key_iff w k W). unfold line_of. split; [intros (k' & t' & E & H); injection E as -> ->; exact H|intros H; exists k, t; tauto]. Qed.
Lemma rss_ne : s_ "rss" <> []. Proof. discriminate. Qed.
Lemma peak_ne : s_ "peak" <> []. Proof. discriminate. Qed.
Lemma line_ok parse acc x : readable parse x -> exists a, status_line parse acc x = Ok a /\
  (line_of "rss" x -> exists k v t, x = k :: v :: t /\ word_of "rss" k /\ parse v = Some (fst a)) /\ (~ line_of "rss" x -> fst a = fst acc) /\
  (line_of "peak" x -> exists k v t, x = k :: v :: t /\ word_of "peak" k /\ parse v = Some (snd a)) /\ (~ line_of "peak" x -> snd a = snd acc).
Proof.
  intros [N R]. destruct x as [|k t]; [congruence|]. assert (L1 := line_key "rss" k t rss_ne). assert (L2 := line_key "peak" k t peak_ne). cbn [status_line].
  destruct (eq_str (key_of k) (s_ "peak")) eqn:P; destruct (eq_str (key_of k) (s_ "rss")) eqn:Q; cbn [orb].
  - apply eq_str_iff in P, Q. rewrite P in Q. discriminate.
  - apply eq_str_iff in P. destruct (R (or_intror (proj2 L2 P))) as (k' & v & t' & n & E & V). injection E as <- ->. rewrite V. eexists. split; [reflexivity|]. cbn [fst snd].
    assert (Q' : key_of k <> s_ "rss") by (intros C; apply eq_str_iff in C; congruence). split; [tauto|]. split; [reflexivity|]. split; [|tauto].
    intros _. exists k, v, t'. split; [reflexivity|]. split; [apply (key_iff "peak" k peak_ne), P|exact V].
  - apply eq_str_iff in Q. destruct (R (or_introl (proj2 L1 Q))) as (k' & v & t' & n & E & V). injection E as <- ->. rewrite V. eexists. split; [reflexivity|]. cbn [fst snd].
    assert (P' : key_of k <> s_ "peak") by (intros C; apply eq_str_iff in C; congruence). split; [|split; [tauto|split; [tauto|reflexivity]]].
    intros _. exists k, v, t'. split; [reflexivity|]. split; [apply (key_iff "rss" k rss_ne), Q|exact V].
  - exists acc. split; [reflexivity|]. assert (Q' : key_of k <> s_ "rss") by (intros C; apply eq_str_iff in C; congruence). assert (P' : key_of k <> s_ "peak") by (intros C; apply eq_str_iff in C; congruence).
    split; [tauto|]. split; [reflexivity|]. split; [tauto|reflexivity].
Qed.
(** from a state: the value of the last line, or that of the state *)
Definition reports_from parse lines w (d n : Z) : Prop :=
  (exists pre k v t post, lines = pre ++ (k :: v :: t) :: post /\ word_of w k /\ parse v = Some n /\ Forall (fun x => ~ line_of w x) post) \/ (n = d /\ Forall (fun x => ~ line_of w x) lines).
Lemma reports_cons parse x l w d d' n : (line_of w x -> exists k v t, x = k :: v :: t /\ word_of w k /\ parse v = Some d') -> (~ line_of w x -> d' = d) -> (line_of w x \/ ~ line_of w x) ->
  reports_from parse l w d' n -> reports_from parse (x :: l) w d n.
Proof.
  intros A B D [(pre & k & v & t & post & -> & H)|[-> H]]; [left; exists (x :: pre), k, v, t, post; split; [reflexivity|exact H]|]. destruct D as [D|D].
  - destruct (A D) as (k & v & t & -> & K & V). left. exists [], k, v, t, l. repeat split; assumption.
  - right. split; [exact (B D)|constructor; assumption].
Qed.
Lemma line_dec w x : s_ w <> [] -> line_of w x \/ ~ line_of w x.
Proof. intros W. destruct x as [|k t]; [right; intros (k & t & E & _); discriminate|]. rewrite (line_key w k t W). destruct (list_eq_dec ascii_dec (key_of k) (s_ w)); tauto. Qed.
Lemma lines_ok parse l : Forall (readable parse) l -> forall acc, exists r p, status_lines parse acc l = Ok (r, p) /\ reports_from parse l "rss" (fst acc) r /\ reports_from parse l "peak" (snd acc) p.
Proof.
  induction 1 as [|x l X F IH]; intros acc.
  - exists (fst acc), (snd acc). destruct acc. cbn. split; [reflexivity|]. split; right; split; (reflexivity || constructor).
  - destruct (line_ok parse acc x X) as (a & E & R1 & R2 & P1 & P2). cbn [status_lines]. rewrite E. cbn [bind]. destruct (IH a) as (r & p & G & R & P). exists r, p. split; [exact G|].
    split; [apply (reports_cons parse x l "rss" _ (fst a)); auto using line_dec, rss_ne|apply (reports_cons parse x l "peak" _ (snd a)); auto using line_dec, peak_ne].
Qed.
Lemma line_err parse acc x : ~ readable parse x -> exists e, status_line parse acc x = Err e.
Proof.
  intros N. destruct x as [|k t]; [eexists; reflexivity|]. cbn [status_line]. destruct (eq_str (key_of k) (s_ "peak") || eq_str (key_of k) (s_ "rss"))%bool eqn:B.
  - destruct t as [|v t]; [eexists; reflexivity|]. destruct (parse v) as [n|] eqn:V; [|eexists; reflexivity]. exfalso. apply N. split; [discriminate|]. intros _. exists k, v, t, n. split; [reflexivity|exact V].
  - exfalso. apply N. split; [discriminate|]. rewrite (line_key "rss" k t rss_ne), (line_key "peak" k t peak_ne). apply Bool.orb_false_iff in B as [B1 B2]. intros [C|C]; apply eq_str_iff in C; congruence.
Qed.
Lemma lines_err parse l : forall acc, (exists x, In x l /\ ~ readable parse x) -> exists e, status_lines parse acc l = Err e.
Proof.
  induction l as [|x l IH]; intros acc (y & Y & N); [destruct Y|]. cbn [status_lines]. destruct (status_line parse acc x) as [a|e] eqn:E; [|exists e; reflexivity]. cbn [bind].
  destruct Y as [->|Y]; [destruct (line_err parse acc y N) as [e K]; congruence|]. apply IH. exists y. tauto.
Qed.
