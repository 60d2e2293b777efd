(** Lemmas about the outputs of a consolidation. *)
From Coq Require Import Ascii String QArith Qround.
From Verif.Base Require Import Py PyLemmas Sort.
From Verif.Model Require Import Names Richness Consolidate ConsOut.
From Verif.Spec Require Import ConsOut.
From Verif.Proofs Require Import Names RunAll Richness.
From Coq Require Import Lqa Lia List. Import ListNotations.
Local Open Scope list_scope.

Lemma put_same d n t : put d n t n = Some t.
Proof. unfold put. assert (E : str_eqb n n = true) by (apply str_eqb_iff; reflexivity). rewrite E. reflexivity. Qed.
Lemma put_other d n t m : m <> n -> put d n t m = d m.
Proof. intros N. unfold put. destruct (str_eqb m n) eqn:E; [apply str_eqb_iff in E; contradiction|reflexivity]. Qed.

(** one file in the selection for one output *)
Definition sel1 (sel : bool) (zmax : Z -> Q) (minl : Q) (b : block) (out : option tables) : res (option tables) :=
  do use <- cat_use sel zmax minl b;
  if Nat.eqb (List.length use) 0 then Ok out else
  do ids <- np_take (map c_id (b_cat b)) use;
  do ab <- eu_match ids (map m_id (b_mem b));
  match out with
  | None =>
    do cs <- (if Nat.eqb (List.length (b_cat b)) 1 then Ok (b_cat b) else np_take (b_cat b) use);
    do ms <- (if Nat.eqb (List.length (b_mem b)) 1 then Ok (b_mem b) else np_take (b_mem b) (snd ab));
    Ok (Some (cs, ms))
  | Some (cs0, ms0) =>
    do cs <- np_take (b_cat b) use;
    do ms <- np_take (b_mem b) (snd ab);
    Ok (Some (cs0 ++ cs, ms0 ++ ms))
  end.
Lemma select_cons sel zmax minl b rest out : select sel zmax minl (b :: rest) out = do o <- sel1 sel zmax minl b out; select sel zmax minl rest o.
Proof.
  cbn [select]. unfold sel1. destruct (cat_use sel zmax minl b) as [use|]; [|reflexivity]. cbn [bind]. destruct (Nat.eqb (List.length use) 0); [reflexivity|].
  destruct (np_take (map c_id (b_cat b)) use) as [ids|]; [|reflexivity]. cbn [bind]. destruct (eu_match ids (map m_id (b_mem b))) as [ab|]; [|reflexivity]. cbn [bind].
  destruct out as [[cs0 ms0]|].
  - destruct (np_take (b_cat b) use); [|reflexivity]. cbn [bind]. destruct (np_take (b_mem b) (snd ab)); reflexivity.
  - destruct (if Nat.eqb (List.length (b_cat b)) 1 then _ else _); [|reflexivity]. cbn [bind]. destruct (if Nat.eqb (List.length (b_mem b)) 1 then _ else _); reflexivity.
Qed.
Lemma select_keeps sel zmax minl bs : forall out r, select sel zmax minl bs out = Ok r -> out <> None -> r <> None.
Proof.
  induction bs as [|b bs IH]; intros out r H N; [cbn in H; congruence|]. rewrite select_cons in H. destruct (sel1 sel zmax minl b out) as [o|] eqn:S; [|discriminate]. cbn [bind] in H. apply (IH o r H). revert S. unfold sel1.
  destruct (cat_use sel zmax minl b) as [use|]; [|discriminate]. cbn [bind]. destruct (Nat.eqb (List.length use) 0); [congruence|].
  destruct (np_take (map c_id (b_cat b)) use) as [ids|]; [|discriminate]. cbn [bind]. destruct (eu_match ids (map m_id (b_mem b))) as [ab|]; [|discriminate]. cbn [bind].
  destruct out as [[cs0 ms0]|]; [|congruence]. destruct (np_take (b_cat b) use); [|discriminate]. cbn [bind]. destruct (np_take (b_mem b) (snd ab)); [|discriminate]. cbn [bind]. congruence.
Qed.
(** what an output holds so far *)
Definition cur (d : disk) (x : output * bool) : option tables := if snd x then d (o_name (fst x)) else None.
Definition live (d : disk) (x : output * bool) : Prop := snd x = true -> d (o_name (fst x)) <> None.
Lemma out_step_ok sel b o st d out : live d (o, st) -> sel1 sel (o_zmax o) (o_minl o) b (cur d (o, st)) = Ok out ->
  exists st' d', out_step sel b o st d = Ok (st', d') /\ cur d' (o, st') = out /\ live d' (o, st') /\ (forall m, m <> o_name o -> d' m = d m) /\ (st' = false -> d' (o_name o) = d (o_name o)).
Proof.
  unfold live, cur, sel1, out_step. cbn [fst snd]. intros L H. destruct (cat_use sel (o_zmax o) (o_minl o) b) as [use|]; [|discriminate]. cbn [bind] in *.
  destruct (Nat.eqb (List.length use) 0). { injection H as <-. exists st, d. auto. }
  destruct (np_take (map c_id (b_cat b)) use) as [ids|]; [|discriminate]. cbn [bind] in *. destruct (eu_match ids (map m_id (b_mem b))) as [ab|]; [|discriminate]. cbn [bind] in *.
  destruct st.
  - specialize (L eq_refl). destruct (d (o_name o)) as [[cs0 ms0]|] eqn:D; [|congruence]. destruct (np_take (b_cat b) use); [|discriminate]. cbn [bind] in *. destruct (np_take (b_mem b) (snd ab)); [|discriminate]. cbn [bind] in *. injection H as <-.
    eexists. eexists. split; [reflexivity|]. rewrite put_same. split; [reflexivity|]. split; [discriminate|]. split; [intros; apply put_other; assumption|discriminate].
  - destruct (if Nat.eqb (List.length (b_cat b)) 1 then _ else _); [|discriminate]. cbn [bind] in *. destruct (if Nat.eqb (List.length (b_mem b)) 1 then _ else _); [|discriminate]. cbn [bind] in *. injection H as <-.
    eexists. eexists. split; [reflexivity|]. rewrite put_same. split; [reflexivity|]. split; [discriminate|]. split; [intros; apply put_other; assumption|discriminate].
Qed.
Definition names (os : list (output * bool)) : list str := map (fun x => o_name (fst x)) os.
Lemma file_step_ok sel b os : forall d, NoDup (names os) -> (forall x, In x os -> live d x) ->
  (forall x, In x os -> exists out, sel1 sel (o_zmax (fst x)) (o_minl (fst x)) b (cur d x) = Ok out) ->
  exists d' os', file_step sel b os d = (d', Ok os') /\ (forall m, ~ In m (names os) -> d' m = d m) /\
    Forall2 (fun x y => fst y = fst x /\ live d' y /\ sel1 sel (o_zmax (fst x)) (o_minl (fst x)) b (cur d x) = Ok (cur d' y) /\ (snd y = false -> d' (o_name (fst x)) = d (o_name (fst x)))) os os'.
Proof.
  induction os as [|[o st] os IH]; intros d ND L H; cbn [file_step]; [exists d, []; auto|].
  destruct (H (o, st) (or_introl eq_refl)) as [out E]. cbn [fst snd] in E. destruct (out_step_ok sel b o st d out (L _ (or_introl eq_refl)) E) as (st' & d1 & E1 & C1 & L1 & O1 & U1). rewrite E1.
  cbn [names map fst] in ND. inversion ND as [|? ? N1 ND1]; subst.
  assert (Same : forall x, In x os -> d1 (o_name (fst x)) = d (o_name (fst x))). { intros x I. apply O1. intros Q. apply N1. rewrite <- Q. apply (in_map (fun x => o_name (fst x))), I. }
  destruct (IH d1 ND1) as (d2 & os2 & E2 & O2 & F).
  - intros x I Q. rewrite Same by exact I. apply (L x (or_intror I) Q).
  - intros x I. destruct (H x (or_intror I)) as [out2 E2]. exists out2. unfold cur in *. rewrite (Same x I). exact E2.
  - rewrite E2. exists d2, ((o, st') :: os2). split; [reflexivity|]. split.
    + intros m Q. rewrite O2 by (intros J; apply Q; right; exact J). apply O1. intros J. apply Q. left. cbn. congruence.
    + assert (K : d2 (o_name o) = d1 (o_name o)) by (apply O2; exact N1). constructor.
      * cbn [fst]. split; [reflexivity|]. split; [unfold live in *; cbn [fst snd] in *; rewrite K; exact L1|]. split; [rewrite E; f_equal; unfold cur in *; cbn [fst snd] in *; rewrite K; congruence|]. cbn [fst snd]. rewrite K. exact U1.
      * clear -F Same. assert (G : forall l l', (forall x, In x l -> d1 (o_name (fst x)) = d (o_name (fst x))) -> Forall2 (fun x y => fst y = fst x /\ live d2 y /\ sel1 sel (o_zmax (fst x)) (o_minl (fst x)) b (cur d1 x) = Ok (cur d2 y) /\ (snd y = false -> d2 (o_name (fst x)) = d1 (o_name (fst x)))) l l' ->
           Forall2 (fun x y => fst y = fst x /\ live d2 y /\ sel1 sel (o_zmax (fst x)) (o_minl (fst x)) b (cur d x) = Ok (cur d2 y) /\ (snd y = false -> d2 (o_name (fst x)) = d (o_name (fst x)))) l l').
        { intros l l' S F'. induction F' as [|x y l l' (A & B & C & U) F' IH]; constructor; [|apply IH; intros; apply S; right; assumption]. split; [exact A|]. split; [exact B|]. unfold cur in *. rewrite <- (S x (or_introl eq_refl)). split; assumption. }
        apply G; assumption.
Qed.
Lemma all_files_ok sel bs : forall os d, NoDup (names os) -> (forall x, In x os -> live d x) ->
  (forall x, In x os -> exists out, select sel (o_zmax (fst x)) (o_minl (fst x)) bs (cur d x) = Ok out) ->
  exists d' os', all_files sel bs os d = (d', Ok os') /\ (forall m, ~ In m (names os) -> d' m = d m) /\
    Forall2 (fun x y => fst y = fst x /\ live d' y /\ select sel (o_zmax (fst x)) (o_minl (fst x)) bs (cur d x) = Ok (cur d' y) /\ (snd y = false -> d' (o_name (fst x)) = d (o_name (fst x)))) os os'.
Proof.
  induction bs as [|b bs IH]; intros os d ND L H; cbn [all_files].
  - exists d, os. split; [reflexivity|]. split; [auto|]. clear ND H. induction os as [|x os IHo]; constructor; [|apply IHo; intros; apply L; right; assumption]. split; [reflexivity|]. split; [apply L; left; reflexivity|]. split; reflexivity.
  - destruct (file_step_ok sel b os d ND L) as (d1 & os1 & E1 & O1 & F1).
    { intros x I. destruct (H x I) as [out E]. rewrite select_cons in E. destruct (sel1 _ _ _ b (cur d x)) as [o|]; [eauto|discriminate]. }
    rewrite E1. assert (Nm : names os1 = names os). { clear -F1. unfold names. induction F1 as [|x y l l' (A & _) F IHF]; cbn [map]; [reflexivity|]. rewrite A, IHF. reflexivity. }
    assert (P : forall y, In y os1 -> exists x, In x os /\ fst y = fst x /\ live d1 y /\ sel1 sel (o_zmax (fst x)) (o_minl (fst x)) b (cur d x) = Ok (cur d1 y) /\ (snd y = false -> d1 (o_name (fst x)) = d (o_name (fst x)))).
    { clear -F1. induction F1 as [|x y l l' A F IHF]; intros z [].
      - subst z. exists x. split; [left; reflexivity|exact A].
      - destruct (IHF z H) as (x' & I & B). exists x'. split; [right; exact I|exact B]. }
    destruct (IH os1 d1) as (d2 & os2 & E2 & O2 & F2).
    + rewrite Nm. exact ND.
    + intros y I. destruct (P y I) as (x & _ & _ & Ly & _). exact Ly.
    + intros y I. destruct (P y I) as (x & Ix & A & _ & S & _). destruct (H x Ix) as [out E]. rewrite select_cons, S in E. cbn [bind] in E. rewrite A. eauto.
    + exists d2, os2. split; [exact E2|]. split; [intros m Q; rewrite O2 by (rewrite Nm; exact Q); apply O1, Q|].
      clear -F1 F2. revert os2 F2. induction F1 as [|x y l l' (A & B & C & U) F IHF]; intros os2 F2; inversion F2 as [|? z ? m (A' & B' & C' & U') F2']; subst; constructor; [|apply IHF; exact F2'].
      split; [congruence|]. split; [exact B'|]. rewrite select_cons, C. cbn [bind]. rewrite <- A. split; [exact C'|]. intros Q. rewrite (U' Q). assert (Qy : snd y = false). { destruct (snd y) eqn:Sy; [|reflexivity]. exfalso. apply (select_keeps _ _ _ _ _ _ C'); unfold cur; [rewrite Sy; apply B, Sy|rewrite Q; reflexivity]. } rewrite A. apply U, Qy.
Qed.
Definition final (sorted new : list Z) (t : tables) : res tables := do cs' <- rematch_cat sorted new (fst t); do mb <- rematch sorted new (snd t); Ok (cs', fst mb).
Lemma renumber_pre sorted new pre rest : forall d, NoDup (names (pre ++ rest)) ->
  (forall x, In x pre -> snd x = true /\ exists t r, d (o_name (fst x)) = Some t /\ final sorted new t = Ok r) ->
  exists d', renumber sorted new (pre ++ rest) d = renumber sorted new rest d' /\ (forall m, ~ In m (names pre) -> d' m = d m) /\
    (forall x t r, In x pre -> d (o_name (fst x)) = Some t -> final sorted new t = Ok r -> d' (o_name (fst x)) = Some r).
Proof.
  induction pre as [|[o st] pre IH]; intros d ND H; [exists d; split; [reflexivity|]; split; [auto|intros ? ? ? []]|].
  cbn [app renumber]. destruct (H (o, st) (or_introl eq_refl)) as (S & t & r & D & F). cbn [fst snd] in S, D. subst st. rewrite D. destruct t as [cs ms]. unfold final in F. cbn [fst snd] in F.
  rewrite F. cbn [names map fst app] in ND. inversion ND as [|? ? N1 ND1]; subst.
  assert (Diff : forall x, In x pre -> o_name (fst x) <> o_name o). { intros x I Q. apply N1. rewrite <- Q. unfold names. apply (in_map (fun x => o_name (fst x))). apply in_or_app. left. exact I. }
  destruct (IH (put d (o_name o) r)) as (d' & E & O & G); [exact ND1| |].
  - intros x I. rewrite put_other by (apply Diff, I). apply H. right. exact I.
  - exists d'. split; [exact E|]. split.
    + intros m Q. rewrite O by (intros J; apply Q; right; exact J). apply put_other. intros J. apply Q. left. cbn. congruence.
    + intros x t' r' [I|I] D' F'.
      * subst x. cbn [fst] in *. rewrite O. { rewrite put_same. rewrite D in D'. injection D' as <-. unfold final in F'. cbn [fst snd] in F'. congruence. }
        intros J. apply N1. unfold names in *. rewrite map_app. apply in_or_app. left. exact J.
      * apply (G x t' r' I); [|exact F']. rewrite put_other by (apply Diff, I). exact D'.
Qed.
(** the consolidation for one output, in its parts *)
Lemma task_parts asort q sel fs o t : alone asort q sel fs o t -> exists bs sorted u, fs <> [] /\ merge q 0 fs = Ok bs /\ select sel (o_zmax o) (o_minl o) bs None = Ok (Some u) /\
  np_take (map c_id (concat (map b_cat bs))) (desc asort (map c_like (concat (map b_cat bs)))) = Ok sorted /\ final sorted (seqZ 1 (List.length (concat (map b_cat bs)))) u = Ok t.
Proof.
  unfold alone, consolidate_task. destruct fs as [|f fs]; [discriminate|]. destruct (merge q 0 (f :: fs)) as [bs|] eqn:M; [|discriminate]. cbn [bind].
  destruct (select sel (o_zmax o) (o_minl o) bs None) as [out|] eqn:S; [|discriminate]. cbn [bind]. destruct (np_take _ _) as [sorted|] eqn:T; [|discriminate]. cbn [bind]. destruct out as [[cs ms]|]; [|discriminate].
  intros H. exists bs, sorted, (cs, ms). repeat split; try assumption; try discriminate.
Qed.
Lemma names_map os st : names (map (fun o => (o, st)) os) = map o_name os.
Proof. unfold names. rewrite map_map. reflexivity. Qed.
Lemma Forall2_map_fst {A B} (P : A * bool -> B -> Prop) (l : list A) st (m : list B) : Forall2 P (map (fun o => (o, st)) l) m -> Forall2 (fun o y => P (o, st) y) l m.
Proof. revert m. induction l as [|a l IH]; intros m H; inversion H; subst; constructor; auto. Qed.
(** KeyError comes from the dictionary only *)
Definition nokey {A} (r : res A) : Prop := r <> Err KeyError.
Ltac nk := intros; unfold nokey; discriminate.
Lemma nokey_bind {A B} (r : res A) (f : A -> res B) : nokey r -> (forall x, nokey (f x)) -> nokey (do x <- r; f x).
Proof. unfold nokey. intros H1 H2. destruct r; cbn [bind]; [apply H2|congruence]. Qed.
Lemma nokey_ok {A} (x : A) : nokey (Ok x). Proof. nk. Qed.
Lemma nokey_take {A} (l : list A) idx : nokey (np_take l idx).
Proof. induction idx as [|i idx IH]; cbn [np_take]; [nk|]. destruct (nth_error l i); [|nk]. apply nokey_bind; [exact IH|intros; nk]. Qed.
Lemma nokey_match a b : nokey (eu_match a b).
Proof. unfold eu_match. destruct (_ || _)%bool; [nk|]. destruct (nodupZ a); nk. Qed.
Lemma nokey_rematch a b m : nokey (rematch a b m).
Proof. unfold rematch. apply nokey_bind; [apply nokey_match|intros]. apply nokey_bind; [apply nokey_take|intros; nk]. Qed.
Lemma nokey_rematch_cat a b m : nokey (rematch_cat a b m).
Proof. unfold rematch_cat. apply nokey_bind; [apply nokey_match|intros]. apply nokey_bind; [apply nokey_take|intros; nk]. Qed.
Lemma nokey_merge q fs : forall s, nokey (merge q s fs).
Proof.
  induction fs as [|f fs IH]; intros s; cbn [merge]; [nk|]. destruct (Nat.eqb _ _); [apply IH|]. apply nokey_bind; [apply nokey_rematch|intros]. apply nokey_bind; [apply nokey_take|intros].
  apply nokey_bind; [apply IH|intros; nk].
Qed.
Lemma nokey_div a b : nokey (np_div a b).
Proof. unfold np_div. destruct (Nat.eqb _ _); [nk|]. destruct a as [|x [|y a]], b as [|z [|w b]]; nk. Qed.
Lemma nokey_and a b : nokey (np_and a b).
Proof. unfold np_and. destruct (Nat.eqb _ _); [nk|]. destruct a as [|x [|y a]], b as [|z [|w b]]; nk. Qed.
Lemma nokey_use sel zmax minl b : nokey (cat_use sel zmax minl b).
Proof.
  unfold cat_use. apply nokey_bind; [destruct sel; [apply nokey_div|nk]|intros]. apply nokey_bind; [apply nokey_and|nk].
Qed.
Lemma nokey_sel1 sel zmax minl b out : nokey (sel1 sel zmax minl b out).
Proof.
  unfold sel1. apply nokey_bind; [apply nokey_use|intros]. destruct (Nat.eqb _ _); [nk|]. apply nokey_bind; [apply nokey_take|intros]. apply nokey_bind; [apply nokey_match|intros].
  destruct out as [[c m]|]; (apply nokey_bind; [try (destruct (Nat.eqb _ _)); try nk; apply nokey_take|intros]); (apply nokey_bind; [try (destruct (Nat.eqb _ _)); try nk; apply nokey_take|intros; nk]).
Qed.
Lemma nokey_select sel zmax minl bs : forall out, nokey (select sel zmax minl bs out).
Proof. induction bs as [|b bs IH]; intros out; [nk|]. rewrite select_cons. apply nokey_bind; [apply nokey_sel1|apply IH]. Qed.
Lemma empty_parts asort q sel fs o bs : merge q 0 fs = Ok bs -> consolidate_task asort q sel (o_zmax o) (o_minl o) fs = Err KeyError -> select sel (o_zmax o) (o_minl o) bs None = Ok None.
Proof.
  unfold consolidate_task. intros M. destruct fs as [|f fs]; [discriminate|]. rewrite M. cbn [bind]. destruct (select sel (o_zmax o) (o_minl o) bs None) as [[[cs ms]|]|e] eqn:S; [|reflexivity|].
  - cbn [bind]. intros H. exfalso. revert H. apply nokey_bind; [apply nokey_take|intros]. apply nokey_bind; [apply nokey_rematch_cat|intros]. apply nokey_bind; [apply nokey_rematch|nk].
  - cbn [bind]. intros H. exfalso. apply (nokey_select sel (o_zmax o) (o_minl o) bs None). rewrite S. congruence.
Qed.
Lemma final_data sorted new u t : final sorted new u = Ok t -> List.length (fst t) = List.length (fst u) /\ map c_data (fst t) = map c_data (fst u).
Proof.
  unfold final. destruct u as [cs ms]. cbn [fst snd]. destruct (rematch_cat sorted new cs) as [cs'|] eqn:E; [|discriminate]. cbn [bind]. destruct (rematch sorted new ms) as [mb|]; [|discriminate]. cbn [bind]. intros H. injection H as <-. cbn [fst].
  unfold rematch_cat in E. destruct (eu_match sorted (map c_id cs)) as [ab|]; [|discriminate]. cbn [bind] in E. destruct (np_take new (fst ab)) as [v|]; [|discriminate]. cbn [bind] in E. injection E as <-.
  set (ids := scatter (map c_id cs) _). assert (L : List.length ids = List.length cs) by (unfold ids; rewrite scatter_length; apply map_length). unfold set_cids. clearbody ids.
  split; [rewrite map_length, combine_length, L; lia|]. rewrite map_map. revert ids L. induction cs as [|c cs IH]; intros [|i ids] L; try discriminate; [reflexivity|]. cbn. f_equal. apply IH. injection L as L. exact L.
Qed.
Lemma NoDup_app_disj {A} (l m : list A) x : NoDup (l ++ m) -> In x l -> In x m -> False.
Proof. induction l as [|a l IH]; cbn; intros ND I J; [destruct I|]. inversion ND as [|? ? N ND']; subst. destruct I as [->|I]; [apply N, in_app_iff; auto|apply (IH ND' I J)]. Qed.
Lemma Forall2_cons_l {A B} (P : A -> B -> Prop) a l m : Forall2 P (a :: l) m -> exists b m', m = b :: m' /\ P a b /\ Forall2 P l m'.
Proof. intros H. inversion H; subst. eauto. Qed.
