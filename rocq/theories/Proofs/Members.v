From Coq Require Import QArith Qabs String Permutation.
From Verif.Base Require Import Py PyLemmas Sort.
From Verif.Model Require Import Members.
From Verif.Spec Require Import Galfile Members.
From Verif.Proofs Require Import Galfile Chunks Consolidate.
From Coq Require Import Lqa Lia List.
Import ListNotations.
Local Open Scope nat_scope.
Local Open Scope list_scope.

Section Join.
Context {A B : Type} (fa : A -> Z) (fb : B -> Z) (cs : list A).
Definition partner (m : B) : option A := match index_ofZ (fb m) (map fa cs) with Some i => nth_error cs i | None => None end.
Definition join (ms : list B) : list (A * B) := flat_map (fun m => match partner m with Some c => [(c, m)] | None => [] end) ms.
Lemma join_take ms : forall pre,
  exists ks mb, np_take cs (fst (match_from (map fa cs) (length pre) (map fb ms))) = Ok ks /\
    np_take (pre ++ ms) (snd (match_from (map fa cs) (length pre) (map fb ms))) = Ok mb /\
    map fst (join ms) = ks /\ map snd (join ms) = mb.
Proof.
  induction ms as [|m ms IH]; intros pre; [exists [], []; auto|].
  destruct (IH (pre ++ [m])) as (ks & mb & E1 & E2 & E3 & E4).
  rewrite app_length in E1, E2. cbn [length] in E1, E2. rewrite Nat.add_1_r in E1, E2. rewrite <- app_assoc in E2. cbn [app] in E2.
  cbn [map match_from]. unfold join. cbn [flat_map]. fold (join ms). unfold partner at 1 2.
  destruct (match_from (map fa cs) (S (length pre)) (map fb ms)) as [u v]. cbn [fst snd] in *.
  destruct (index_ofZ (fb m) (map fa cs)) as [i|] eqn:Ei; [|exists ks, mb; auto].
  assert (Hi := index_ofZ_nth _ _ _ Ei). rewrite nth_error_map in Hi. destruct (nth_error cs i) as [c|] eqn:Ec; [|discriminate].
  exists (c :: ks), (m :: mb). cbn [fst snd np_take]. rewrite Ec, E1. cbn [bind].
  rewrite nth_error_app2, Nat.sub_diag by lia. cbn [nth_error]. rewrite E2. cbn [bind app map fst snd]. rewrite E3, E4. auto.
Qed.
Lemma partner_some m c : partner m = Some c -> In c cs /\ fa c = fb m.
Proof.
  unfold partner. destruct (index_ofZ (fb m) (map fa cs)) as [i|] eqn:Ei; [|discriminate]. intros Hc.
  apply index_ofZ_nth in Ei. rewrite nth_error_map, Hc in Ei. cbn in Ei. injection Ei as Ei. split; [eapply nth_error_In; exact Hc|exact Ei].
Qed.
Lemma partner_none m : partner m = None -> forall c, In c cs -> fa c <> fb m.
Proof.
  unfold partner. destruct (index_ofZ (fb m) (map fa cs)) as [i|] eqn:Ei.
  - intros Hc. apply index_ofZ_nth in Ei. rewrite nth_error_map, Hc in Ei. discriminate.
  - intros _ c Hc E. apply index_ofZ_None in Ei. apply Ei. rewrite <- E. apply in_map, Hc.
Qed.
Lemma join_snd keep ms : (forall m, In m ms -> keep m = true <-> exists c, In c cs /\ fa c = fb m) -> map snd (join ms) = filter keep ms.
Proof.
  induction ms as [|m ms IH]; intros H; [reflexivity|]. unfold join. cbn [flat_map filter]. fold (join ms).
  rewrite map_app, IH by (intros x Hx; apply H; right; exact Hx).
  destruct (partner m) as [c|] eqn:E.
  - rewrite (proj2 (H m (or_introl eq_refl))) by (exists c; apply partner_some, E). reflexivity.
  - destruct (keep m) eqn:K; [|reflexivity]. destruct (proj1 (H m (or_introl eq_refl)) K) as (c & Hc & Ec).
    exfalso. exact (partner_none m E c Hc Ec).
Qed.
Lemma join_in ms c m : In (c, m) (join ms) -> In m ms /\ In c cs /\ fa c = fb m.
Proof.
  unfold join. rewrite in_flat_map. intros (x & Hx & Hp). destruct (partner x) as [c'|] eqn:E; [|contradiction].
  destruct Hp as [[= <- <-]|[]]. split; [exact Hx|apply partner_some, E].
Qed.
End Join.

Definition mode_name (cg : bool) : string := if cg then "cg" else "z_init".
Lemma mode_z_ok cg c : mode_z (mode_name cg) c = Ok (zof cg c).
Proof. destruct cg; reflexivity. Qed.
Lemma mapr_mode cg cat : mapr (mode_z (mode_name cg)) cat = Ok (map (zof cg) cat).
Proof. induction cat as [|c cat IH]; [reflexivity|]. cbn [mapr map]. rewrite mode_z_ok. cbn [bind]. rewrite IH. reflexivity. Qed.
Definition ucl (f : conf) (cg : bool) (c : cluster) : bool := use_cluster f (zof cg c) c.
Lemma combine_self {A B} (g : A -> B) l : combine (map g l) l = map (fun x => (g x, x)) l.
Proof. induction l as [|a l IH]; cbn; [reflexivity|]. now rewrite IH. Qed.
Lemma ucl_iff f cg c : ucl f cg c = true <-> good_cluster f cg c.
Proof. unfold ucl, use_cluster, good_cluster. rewrite !Bool.andb_true_iff, !Qlt_bool_iff. tauto. Qed.
Lemma umem_iff f m : use_member f m = true <-> good_member f m.
Proof. unfold use_member, good_member. rewrite Bool.orb_true_iff, !Qlt_bool_iff. tauto. Qed.
Definition out_row (f : conf) (cg : bool) (noise : nat -> Q) (cm : cluster * member) (k : nat) : row :=
  let (c, m) := cm in
  mk_row (if Qlt_bool 0 (f_smooth f) then zof cg c + f_smooth f * noise k else zof cg c)%Q (c_zl c) (m_p m) (m_pcol m) (Qlt_bool (m_r m) (1 # 10000)) (m_phot m).
Definition the_join f cg cat mem := join c_id m_id (filter (ucl f cg) cat) (filter (use_member f) mem).
Lemma prepare_eq f cg cat mem noise :
  prepare f (mode_name cg) cat mem noise =
  do _ <- eu_match (map c_id (filter (ucl f cg) cat)) (map m_id (filter (use_member f) mem));
  Ok (map (fun ck => out_row f cg noise (fst ck) (snd ck)) (combine (the_join f cg cat mem) (seq 0 (length (the_join f cg cat mem))))).
Proof.
  unfold prepare. rewrite mode_z_ok. cbn [bind]. rewrite mapr_mode. cbn [bind]. cbv zeta.
  rewrite combine_self. unfold np_where at 1 2. rewrite where_from_map.
  rewrite (where_from_ext _ (ucl f cg)) by reflexivity. fold (np_where (ucl f cg) cat).
  rewrite np_take_where. cbn [bind]. rewrite (np_take_map (zof cg) cat _ _ (np_take_where (ucl f cg) cat)). cbn [bind].
  rewrite np_take_where. cbn [bind]. destruct (eu_match _ _) as [ab|] eqn:E; [|reflexivity]. cbn [bind].
  assert (Eab : ab = match_from (map c_id (filter (ucl f cg) cat)) 0 (map m_id (filter (use_member f) mem))).
  { unfold eu_match in E. destruct (_ || _); [discriminate|]. destruct (nodupZ _); [|discriminate]. now injection E as <-. }
  destruct (join_take c_id m_id (filter (ucl f cg) cat) (filter (use_member f) mem) []) as (ks & mb & E1 & E2 & E3 & E4).
  cbn [length app] in E1, E2. rewrite <- Eab in E1, E2. rewrite E2. cbn [bind].
  rewrite (np_take_map (zof cg) _ _ _ E1). cbn [bind]. rewrite (np_take_map c_zl _ _ _ E1). cbn [bind].
  fold (the_join f cg cat mem) in E3, E4. f_equal. set (J := the_join f cg cat mem) in *. clearbody J. clear - E3 E4. subst ks mb.
  apply nth_error_ext. intros k. rewrite !nth_error_map, map_length.
  destruct (Nat.lt_ge_cases k (length J)) as [L|G].
  - rewrite (nth_error_nth' (seq 0 (length J)) 0) by (rewrite seq_length; exact L). rewrite seq_nth by exact L. cbn [option_map Nat.add].
    destruct (nth_error J k) as [[c m]|] eqn:EJ; [|apply nth_error_None in EJ; lia].
    assert (EC : nth_error (combine J (seq 0 (length J))) k = Some ((c, m), k)).
    { clear - EJ L. rewrite (nth_error_nth' _ ((c, m), k)) by (rewrite combine_length, seq_length; lia). f_equal.
      rewrite combine_nth by (rewrite seq_length; reflexivity). rewrite seq_nth by lia.
      rewrite (nth_error_nth _ _ (c, m) EJ). reflexivity. }
    rewrite EC. cbn [option_map fst snd out_row].
    rewrite (nth_error_nth (map (zof cg) (map fst J)) k 0%Q (x := zof cg c)) by (rewrite !nth_error_map, EJ; reflexivity).
    rewrite (nth_error_nth (map c_zl (map fst J)) k 0%Q (x := c_zl c)) by (rewrite !nth_error_map, EJ; reflexivity).
    rewrite (nth_error_nth (map snd J) k _ (x := m)) by (rewrite !nth_error_map, EJ; reflexivity).
    reflexivity.
  - rewrite (proj2 (nth_error_None (seq 0 (length J)) k)) by (rewrite seq_length; exact G).
    rewrite (proj2 (nth_error_None (combine J (seq 0 (length J))) k)) by (rewrite combine_length, seq_length; lia). reflexivity.
Qed.
Lemma eu_match_shape a b : exists r, eu_match a b = r /\
  (a <> [] /\ b <> [] /\ NoDup a -> exists m, r = Ok m) /\ (a = [] \/ b = [] \/ ~ NoDup a -> r = Err ValueError).
Proof.
  exists (eu_match a b). split; [reflexivity|]. split.
  - intros (H1 & H2 & H3). exact (eu_match_ok a b H1 H2 H3).
  - intros H. unfold eu_match. destruct a as [|x a]; [reflexivity|]. destruct b as [|y b]; [reflexivity|].
    cbn [length Nat.eqb orb]. destruct (nodupZ (x :: a)) eqn:E; [|reflexivity]. apply nodupZ_iff in E.
    destruct H as [H|[H|H]]; [discriminate|discriminate|contradiction].
Qed.
Lemma filter_nil_none {A} (p : A -> bool) l : filter p l = [] <-> forall x, In x l -> p x = false.
Proof.
  split.
  - intros H x Hx. destruct (p x) eqn:E; [|reflexivity]. assert (I : In x (filter p l)) by (apply filter_In; auto). rewrite H in I. contradiction.
  - intros H. induction l as [|a l IH]; [reflexivity|]. cbn. rewrite (H a (or_introl eq_refl)). apply IH. intros x Hx. apply H. right. exact Hx.
Qed.
