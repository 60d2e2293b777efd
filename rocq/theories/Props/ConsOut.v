(** C173: the outputs of a consolidation. *)
From Coq Require Import Ascii String QArith Qround.
From Verif.Base Require Import Py PyLemmas Sort.
From Verif.Model Require Import Names Consolidate ConsOut.
From Verif.Spec Require Import Consolidate ConsOut.
From Verif.Proofs Require Import Names RunAll ConsOut.
From Coq Require Import Lqa Lia List. Import ListNotations.
Local Open Scope list_scope.

(** If no two outputs share a name, and every one alone is made, all are made, each with exactly the tables it has alone, and no
    other file is touched.  (Partial: outputs with the same name, and an output without clusters, see below.) *)
Theorem C173_each_partial asort q sel os fs d : NoDup (map o_name os) -> fs <> [] -> os <> [] ->
  (forall o, In o os -> exists t, alone asort q sel fs o t) ->
  exists d', consolidate_all asort q sel os fs d = (d', Ok tt) /\ (forall o t, In o os -> alone asort q sel fs o t -> d' (o_name o) = Some t) /\
    forall m, ~ In m (map o_name os) -> d' m = d m.
Proof.
  intros ND NE NO H. destruct os as [|o0 os0] eqn:Eos; [congruence|]. rewrite <- Eos in *. assert (I0 : In o0 os) by (rewrite Eos; left; reflexivity).
  destruct (H o0 I0) as [t0 A0]. destruct (task_parts _ _ _ _ _ _ A0) as (bs & sorted & u0 & _ & M & _ & T & _).
  assert (X : forall o t, In o os -> alone asort q sel fs o t -> exists u, select sel (o_zmax o) (o_minl o) bs None = Ok (Some u) /\ final sorted (seqZ 1 (List.length (concat (map b_cat bs)))) u = Ok t).
  { intros o t I A. destruct (task_parts _ _ _ _ _ _ A) as (bs' & sorted' & u & _ & M' & S' & T' & F'). rewrite M in M'. injection M' as <-. rewrite T in T'. injection T' as <-. eauto. }
  unfold consolidate_all. destruct fs as [|f fs]; [contradiction|]. rewrite M.
  destruct (all_files_ok sel bs (map (fun o => (o, false)) os) d) as (d1 & os1 & E1 & O1 & F1).
  - rewrite names_map. exact ND.
  - intros x I. apply in_map_iff in I as (o & <- & I). intros Q. discriminate.
  - intros x I. apply in_map_iff in I as (o & <- & I). destruct (H o I) as [t A]. destruct (X o t I A) as (u & S & _). exists (Some u). exact S.
  - rewrite E1. cbv zeta. rewrite T. apply Forall2_map_fst in F1. cbn [fst snd] in F1. rewrite names_map in O1.
    assert (Nm : names os1 = map o_name os). { clear -F1. unfold names. induction F1 as [|x y l l' (A & _) F IHF]; cbn [map]; [reflexivity|]. rewrite A, IHF. reflexivity. }
    assert (P : forall y, In y os1 -> exists o, In o os /\ fst y = o /\ live d1 y /\ select sel (o_zmax o) (o_minl o) bs None = Ok (cur d1 y) /\ (snd y = false -> d1 (o_name o) = d (o_name o))).
    { clear -F1. induction F1 as [|x y l l' A F IHF]; intros z [].
      - subst z. exists x. split; [left; reflexivity|exact A].
      - destruct (IHF z H) as (x' & I & B). exists x'. split; [right; exact I|exact B]. }
    assert (P2 : forall o, In o os -> exists y, In y os1 /\ fst y = o). { clear -F1. induction F1 as [|x y l l' A F IHF]; intros z []; [subst z; exists y; split; [left; reflexivity|apply A]|]. destruct (IHF z H) as (y' & I & B). exists y'. split; [right; exact I|exact B]. }
    assert (V : forall y t, In y os1 -> alone asort q sel (f :: fs) (fst y) t -> snd y = true /\ exists u, d1 (o_name (fst y)) = Some u /\ final sorted (seqZ 1 (List.length (concat (map b_cat bs)))) u = Ok t).
    { intros y t I A. destruct (P y I) as (o & Io & E & Ly & S & _). rewrite E in A. destruct (X o t Io A) as (u & S' & F). rewrite S in S'. injection S' as C. unfold cur in C. destruct (snd y) eqn:B; [|discriminate]. split; [reflexivity|]. rewrite E in C. rewrite E. eauto. }
    destruct (renumber_pre sorted (seqZ 1 (List.length (concat (map b_cat bs)))) os1 [] d1) as (d2 & E2 & O2 & G2).
    + rewrite app_nil_r, Nm. exact ND.
    + intros y I. destruct (P y I) as (o & Io & E & _ & _). destruct (H o Io) as [t A]. rewrite <- E in A. destruct (V y t I A) as (B & u & D & F). eauto.
    + rewrite app_nil_r in E2. rewrite E2. cbn [renumber]. exists d2. split; [reflexivity|]. split.
      * intros o t I A. destruct (P2 o I) as (y & Iy & <-). destruct (V y t Iy A) as (_ & u & D & F). apply (G2 y u t Iy D F).
      * intros m Q. rewrite O2 by (rewrite Nm; exact Q). apply O1, Q.
Qed.
Print Assumptions C173_each_partial.
(** Two outputs have the same name exactly if their cuts have the same whole part, and their volume limits the same first decimal. *)
Theorem C173_names l l' v v' a a' : (0 <= l)%Q -> (0 <= l')%Q -> whole l a -> whole l' a' ->
  (extraname l None = extraname l' None <-> a = a') /\
  (forall b b', (0 <= v)%Q -> (0 <= v')%Q -> whole (v * 10) b -> whole (v' * 10) b' -> (extraname l (Some v) = extraname l' (Some v') <-> a = a' /\ b = b')) /\
  extraname l None <> extraname l' (Some v).
Proof.
  assert (W : forall x n, whole x n -> Qfloor x = n).
  { intros x n [H1 H2]. pose proof (Qfloor_le x) as F1. pose proof (Qlt_floor x) as F2. rewrite inject_Z_plus in F2.
    assert (A : (inject_Z n < inject_Z (Qfloor x) + 1)%Q) by (eapply Qle_lt_trans; eassumption). assert (B : (inject_Z (Qfloor x) < inject_Z n + 1)%Q) by (eapply Qle_lt_trans; eassumption).
    change 1%Q with (inject_Z 1) in A, B. rewrite <- inject_Z_plus, <- Zlt_Qlt in A, B. lia. }
  assert (NN : forall x, (0 <= x)%Q -> (0 <= Qfloor x)%Z). { intros x H. change 0%Z with (Qfloor 0). apply Qfloor_resp_le, H. }
  intros P P' WA WA'. apply W in WA as <-, WA' as <-. unfold extraname. split; [|split].
  - split; [|intros ->; reflexivity]. intros E. apply app_inv_head in E. rewrite !app_nil_r in E. apply (fmt_inj 2); auto.
  - intros b b' Q Q' WB WB'. apply W in WB as <-, WB' as <-. assert (PB : (0 <= v * 10)%Q) by (apply Qmult_le_0_compat; [exact Q|discriminate]). assert (PB' : (0 <= v' * 10)%Q) by (apply Qmult_le_0_compat; [exact Q'|discriminate]).
    split; [|intros [-> ->]; reflexivity]. intros E. apply app_inv_head in E. cbn [s_ list_ascii_of_string app] in E.
    apply (split_at_bar (fmt 2 (Qfloor l)) (fmt 2 (Qfloor l'))) in E as [E1 E2]; [|apply fmt_digits; auto|apply fmt_digits; auto]. injection E2 as E2. split; [apply (fmt_inj 2); auto|apply (fmt_inj 2); auto].
  - intros E. apply app_inv_head in E. rewrite app_nil_r in E. assert (I : In "_"%char (fmt 2 (Qfloor l))) by (rewrite E; apply in_or_app; right; left; reflexivity).
    pose proof (fmt_digits 2 (Qfloor l) (NN l P)) as D. rewrite forallb_forall in D. apply D in I. discriminate.
Qed.
Print Assumptions C173_names.
(** One output for every cut and every volume limit, in this order; without volume limits, one for every cut. *)
Theorem C173_outputs vmask fixed cuts vlims : (vlims = [] -> map (fun o => (o_minl o, o_name o)) (outputs vmask fixed cuts vlims) = map (fun l => (l, extraname l None)) cuts) /\
  (vlims <> [] -> map (fun o => (o_minl o, o_name o)) (outputs vmask fixed cuts vlims) = map (fun x => (fst x, extraname (fst x) (Some (snd x)))) (list_prod cuts vlims)) /\
  (forall o, In o (outputs vmask fixed cuts vlims) -> (vlims = [] /\ o_zmax o = fixed) \/ exists v, In v vlims /\ o_zmax o = vmask v /\ o_name o = extraname (o_minl o) (Some v)).
Proof.
  unfold outputs. split; [|split].
  - intros ->. induction cuts as [|l cuts IH]; cbn [flat_map app map]; [reflexivity|]. rewrite IH. reflexivity.
  - intros N. destruct vlims as [|v0 vs] eqn:E; [contradiction|]. rewrite <- E. induction cuts as [|l cuts IH]; cbn [flat_map list_prod]; [reflexivity|]. rewrite !map_app, IH, !map_map. reflexivity.
  - intros o I. apply in_flat_map in I as (l & _ & I). destruct vlims as [|v0 vs] eqn:E; [destruct I as [<-|[]]; left; auto|]. rewrite <- E in *. right. apply in_map_iff in I as (v & <- & I). exists v. auto.
Qed.
Print Assumptions C173_outputs.
(** The cuts given are used; otherwise the configured ones. *)
Theorem C173_given given conf vgiven vconf : (forall l, given = Some l -> cuts_used given conf = l) /\ (given = None -> cuts_used given conf = conf) /\
  (vgiven <> [] -> vlims_used vgiven vconf = vgiven) /\ (vgiven = [] -> vlims_used vgiven vconf = vconf).
Proof. unfold cuts_used, vlims_used. repeat split; [intros l ->; reflexivity|intros ->; reflexivity|destruct vgiven; [congruence|reflexivity]|intros ->; reflexivity]. Qed.
Print Assumptions C173_given.
(** Finding: the volume limits cannot be switched off in the call: for an empty list the configured ones are used. *)
Theorem C173_none_refuted vconf : vconf <> [] -> vlims_used [] vconf <> [].
Proof. intros H. exact H. Qed.
Print Assumptions C173_none_refuted.
Definition ex_cut : pcut := mkCut (fun p => p) (1#2) 3 false.
Definition ex_files : list pfile :=
  [mkFile 1 [mkClus 7 1 0 30 1 30 (2#10) 101; mkClus 8 1 0 20 1 20 (2#10) 102] [mkMem 7 1001; mkMem 8 1002]; mkFile 2 [mkClus 7 2 0 25 1 10 (2#10) 201] [mkMem 7 2001; mkMem 7 2002]].
(** Finding: the cuts 5 and 11/2 have one file.  The second cut starts it again after the first one has written, then both append: a cluster
    comes twice.  The numbers are replaced twice, so that clusters have the numbers of others. *)
Theorem C173_shared_refuted : exists o o' d, o_minl o = 5%Q /\ o_minl o' = (11#2)%Q /\ o_name o = extraname 5%Q None /\ o_name o' = extraname (11#2)%Q None /\ (forall f, In f ex_files -> file_ok ex_cut f) /\ consolidate_all argsort ex_cut false [o; o'] ex_files (fun _ => None) = (d, Ok tt) /\
  match d (o_name o) with Some (cs, _) => map (fun c => (c_id c, c_data c)) cs = [(2, 101); (3, 102); (3, 201); (3, 201)]%Z | None => False end /\
  match consolidate_task argsort ex_cut false (o_zmax o) 5 ex_files with Ok (cs, _) => map (fun c => (c_id c, c_data c)) cs = [(1, 101); (2, 102); (3, 201)]%Z | Err _ => False end.
Proof.
  exists (mkOut 5 (fun _ => 1%Q) (extraname 5 None)), (mkOut (11#2) (fun _ => 1%Q) (extraname (11#2) None)). eexists. repeat (split; [reflexivity|]). split.
  - intros f [<-|[<-|[]]]; (split; [cbn; repeat constructor; cbn; intuition discriminate|]); cbn.
    + intros c [<-|[<-|[]]]; [exists (mkMem 7 1001)|exists (mkMem 8 1002)]; cbn; auto.
    + intros c [<-|[]]. exists (mkMem 7 2001). cbn. auto.
  - split; [vm_compute; reflexivity|]. split; vm_compute; reflexivity.
Qed.
Print Assumptions C173_shared_refuted.
(** Finding: if no cluster passes one of the cuts, the task stops there with a KeyError.  The outputs before it are complete; its own file, if there
    is one of an earlier run, stays; the outputs after it have all of their clusters, but numbers that are not final (see the example). *)
Theorem C173_unfinished_refuted asort q sel pre o post fs d : NoDup (map o_name (pre ++ o :: post)) -> (exists x, In x (pre ++ post)) ->
  (forall x, In x (pre ++ post) -> exists t, alone asort q sel fs x t) -> consolidate_task asort q sel (o_zmax o) (o_minl o) fs = Err KeyError ->
  exists d', consolidate_all asort q sel (pre ++ o :: post) fs d = (d', Err KeyError) /\
    (forall x t, In x pre -> alone asort q sel fs x t -> d' (o_name x) = Some t) /\ d' (o_name o) = d (o_name o) /\
    (forall x t, In x post -> alone asort q sel fs x t -> exists u, d' (o_name x) = Some u /\ map c_data (fst u) = map c_data (fst t)).
Proof.
  intros ND [x0 I0] H K. destruct (H x0 I0) as [t0 A0]. destruct (task_parts _ _ _ _ _ _ A0) as (bs & sorted & u0 & NE & M & _ & T & _). set (new := seqZ 1 (List.length (concat (map b_cat bs)))).
  assert (X : forall x t, alone asort q sel fs x t -> exists u, select sel (o_zmax x) (o_minl x) bs None = Ok (Some u) /\ final sorted new u = Ok t).
  { intros x t A. destruct (task_parts _ _ _ _ _ _ A) as (bs' & sorted' & u & _ & M' & S' & T' & F'). rewrite M in M'. injection M' as <-. rewrite T in T'. injection T' as <-. eauto. }
  pose proof (empty_parts _ _ _ _ _ _ M K) as S0. unfold consolidate_all. destruct fs as [|f fs]; [contradiction|]. rewrite M.
  destruct (all_files_ok sel bs (map (fun o => (o, false)) (pre ++ o :: post)) d) as (d1 & os1 & E1 & O1 & F1).
  - rewrite names_map. exact ND.
  - intros x I. apply in_map_iff in I as (y & <- & I). intros Q. discriminate.
  - intros x I. apply in_map_iff in I as (y & <- & I). apply in_app_iff in I. destruct I as [I|[<-|I]]; [|exists None; exact S0|];
      (destruct (H y) as [t A]; [apply in_app_iff; auto|]; destruct (X y t A) as (u & S & _); exists (Some u); exact S).
  - rewrite E1. cbv zeta. rewrite T. fold new. apply Forall2_map_fst in F1. cbn [fst snd] in F1. rewrite names_map in O1.
    apply Forall2_app_inv_l in F1 as (pre1 & rest1 & Fp & Fr & ->). apply Forall2_cons_l in Fr as (y & post1 & -> & (Ay & Ly & Sy & Uy) & Fq). cbn [fst snd] in Ay, Uy.
    assert (Y : snd y = false). { assert (Sy' : Ok None = Ok (cur d1 y)) by (etransitivity; [symmetry; exact S0|exact Sy]). injection Sy' as Sy'. destruct y as [y []]; [|reflexivity]. exfalso. apply (Ly eq_refl). cbn in *. symmetry. exact Sy'. }
    assert (V : forall l l1, Forall2 (fun x z => fst z = x /\ live d1 z /\ select sel (o_zmax x) (o_minl x) bs None = Ok (cur d1 z) /\ (snd z = false -> d1 (o_name x) = d (o_name x))) l l1 -> (forall x, In x l -> exists t, alone asort q sel (f :: fs) x t) ->
        (names l1 = map o_name l) /\ (forall z, In z l1 -> In (fst z) l) /\ (forall x, In x l -> exists z, In z l1 /\ fst z = x) /\
        forall z t, In z l1 -> alone asort q sel (f :: fs) (fst z) t -> snd z = true /\ exists u, d1 (o_name (fst z)) = Some u /\ final sorted new u = Ok t).
    { intros l l1 F Hl. induction F as [|x z l l1 (A & L & S & _) F IH]; [split; [reflexivity|]; split; [intros ? []|]; split; [intros ? []|intros ? ? []]|].
      destruct IH as (N1 & N2 & N3 & N4); [intros; apply Hl; right; assumption|]. split; [unfold names in *; cbn [map]; rewrite A, N1; reflexivity|]. split; [intros w [->|I]; [left; congruence|right; apply N2, I]|].
      split; [intros w [->|I]; [exists z; split; [left; reflexivity|exact A]|destruct (N3 w I) as (z' & I' & E'); exists z'; split; [right; exact I'|exact E']]|].
      intros w t [->|I] At; [|apply (N4 w t I At)]. rewrite A in At. destruct (X x t At) as (u & S' & Fu). rewrite S in S'. injection S' as C. unfold cur in C. destruct (snd w); [|discriminate]. split; [reflexivity|]. rewrite A in *. eauto. }
    destruct (V pre pre1 Fp) as (P1 & P2 & P3 & P4); [intros; apply H, in_app_iff; auto|]. destruct (V post post1 Fq) as (Q1 & Q2 & Q3 & Q4); [intros; apply H, in_app_iff; auto|].
    assert (Nm : names (pre1 ++ y :: post1) = map o_name (pre ++ o :: post)). { unfold names in *. rewrite !map_app. cbn [map]. rewrite P1, Q1, Ay. reflexivity. }
    destruct (renumber_pre sorted new pre1 (y :: post1) d1) as (d2 & E2 & O2 & G2).
    + rewrite Nm. exact ND.
    + intros z I. destruct (H (fst z)) as [t A]; [apply in_app_iff; left; apply P2, I|]. destruct (P4 z t I A) as (B & u & D & Fu). eauto.
    + rewrite E2. destruct y as [o' st]. cbn [snd fst] in *. subst st. subst o'. cbn [renumber]. exists d2. split; [reflexivity|]. rewrite map_app in ND. cbn [map] in ND. split; [|split].
      * intros x t I A. destruct (P3 x I) as (z & Iz & <-). destruct (P4 z t Iz A) as (_ & u & D & Fu). apply (G2 z u t Iz D Fu).
      * apply NoDup_remove_2 in ND. rewrite O2 by (rewrite P1; intros J; apply ND, in_app_iff; left; exact J).
        apply Uy. reflexivity.
      * intros x t I A. destruct (Q3 x I) as (z & Iz & <-). destruct (Q4 z t Iz A) as (_ & u & D & Fu). exists u. split; [|symmetry; apply (final_data _ _ _ _ Fu)]. rewrite O2; [exact D|].
        rewrite P1. intros J. apply (NoDup_app_disj _ _ _ ND J). right. apply in_map. exact I.
Qed.
Print Assumptions C173_unfinished_refuted.
Example C173_example : let o := fun l => mkOut l (fun _ => 1%Q) (extraname l None) in let d := fst (consolidate_all argsort ex_cut false [o 5%Q; o 50%Q; o 22%Q] ex_files (fun _ => None)) in
  snd (consolidate_all argsort ex_cut false [o 5%Q; o 50%Q; o 22%Q] ex_files (fun _ => None)) = Err KeyError /\
  option_map (fun t => map (fun c => (c_id c, c_data c)) (fst t)) (d (s_ "lgt05")) = Some [(1, 101); (2, 102); (3, 201)]%Z /\ d (s_ "lgt50") = None /\
  option_map (fun t => map (fun c => (c_id c, c_data c)) (fst t)) (d (s_ "lgt22")) = Some [(0, 101); (2, 201)]%Z /\
  snd (consolidate_all argsort ex_cut false [o 5%Q; o 22%Q] ex_files (fun _ => None)) = Ok tt /\ NoDup (map o_name [o 5%Q; o 50%Q; o 22%Q]) /\
  map o_name (outputs (fun _ _ => 1%Q) (fun _ => 1%Q) [5%Q; 20%Q] [(2#10)%Q; 5%Q]) = [s_ "lgt05_vl02"; s_ "lgt05_vl50"; s_ "lgt20_vl02"; s_ "lgt20_vl50"].
Proof. cbv zeta. repeat (split; [vm_compute; reflexivity|]). split; [|vm_compute; reflexivity]. vm_compute. repeat constructor; cbn; intuition discriminate. Qed.
(** Without any file there is nothing to consolidate: an IndexError, and nothing is written. *)
Theorem C173_nothing asort q sel os d : consolidate_all asort q sel os [] d = (d, Err IndexError).
Proof. reflexivity. Qed.
Print Assumptions C173_nothing.
