(** C129, C130: consolidation of runs on input clusters. *)
From Coq Require Import String ZArith.
From Verif.Base Require Import Py PyLemmas.
From Verif.Model Require Import RuncatCons.
From Verif.Spec Require Import RuncatCons.
From Coq Require Import Lia List. Import ListNotations.
Local Open Scope Z_scope.

(** what one file adds *)
Definition adds (pix : Z -> Z -> Z) ms near nside (f : cfile) : list row :=
  match f_name f with Some (_, h) => filter (fun r => pix nside (r_pos r) =? h) (spec_of ms near h (f_cat f)) | None => [] end.
Definition mem_adds (pix : Z -> Z -> Z) ms near nside (f : cfile) : list row :=
  match adds pix ms near nside f, f_name f with _ :: _, Some (_, h) => spec_of ms near h (f_mem f) | _, _ => [] end.
Lemma fold_form pix ms mm near nside files : (forall f, In f files -> exists h, f_name f = Some (nside, h)) -> forall out,
  fold_left (one pix ms mm near nside) files (Ok out) =
  Ok (match out with
      | Some (c, m) => Some ((c ++ flat_map (adds pix ms near nside) files)%list, match m with Some l => Some (l ++ flat_map (mem_adds pix ms near nside) files)%list | None => None end)
      | None => match flat_map (adds pix ms near nside) files with [] => None | c => Some (c, if mm then Some (flat_map (mem_adds pix ms near nside) files) else None) end
      end).
Proof.
  induction files as [|f l IH]; intros H out; cbn [fold_left flat_map].
  - destruct out as [[c [m|]]|]; [rewrite !app_nil_r|rewrite app_nil_r|]; reflexivity.
  - destruct (H f (or_introl eq_refl)) as [h Eh]. assert (IH' := IH (fun g Hg => H g (or_intror Hg))). unfold one at 2. cbn [bind]. rewrite Eh.
    set (cat := filter (fun r => pix nside (r_pos r) =? h) (spec_of ms near h (f_cat f))).
    assert (A : adds pix ms near nside f = cat) by (unfold adds; rewrite Eh; reflexivity).
    assert (M : mem_adds pix ms near nside f = match cat with [] => [] | _ => spec_of ms near h (f_mem f) end) by (unfold mem_adds; rewrite A, Eh; destruct cat; reflexivity).
    rewrite A, M. destruct cat as [|r t]; cbv zeta; [exact (IH' out)|]. destruct out as [[c m]|]; rewrite IH'.
    + f_equal. f_equal. rewrite <- app_assoc. destruct m; [rewrite <- app_assoc|]; reflexivity.
    + cbn [app]. f_equal. f_equal. destruct mm; reflexivity.
Qed.
Lemma spec_in ms near h l r : In r (spec_of ms near h l) -> exists s, In s l /\ same s r.
Proof.
  unfold spec_of. destruct ms; [|intros H; exists r; split; [exact H|repeat split]]. intros H. apply in_map_iff in H. destruct H as (s & <- & Hs). exists s. split; [exact Hs|]. repeat split.
Qed.
Lemma spec_ids ms near h l : map r_id (spec_of ms near h l) = map r_id l.
Proof. unfold spec_of. destruct ms; [rewrite map_map; reflexivity|reflexivity]. Qed.
Lemma in_spec ms near h l s : In s l -> exists r, In r (spec_of ms near h l) /\ same s r.
Proof. intros H. unfold spec_of. destruct ms; [exists (with_spec (near h) s); split; [apply in_map, H|]|exists s; split; [exact H|]]; repeat split. Qed.

(** * C129 *)
(** C129: the catalog holds exactly the clusters of each file that lie in the pixel of the file. *)
Theorem C129_exact : forall pix ms mm near nside files, files <> [] -> one_run nside files ->
  exists out, written pix ms mm near files = Ok out /\ let cat := match out with Some (c, _) => c | None => [] end in
    (forall r, In r cat -> exists f h s, In f files /\ f_name f = Some (nside, h) /\ In s (f_cat f) /\ same s r /\ pix nside (r_pos s) = h) /\
    (forall f h s, In f files -> f_name f = Some (nside, h) -> In s (f_cat f) -> pix nside (r_pos s) = h -> exists r, In r cat /\ same s r).
Proof.
  intros pix ms mm near nside files Hn [Hr _].
  assert (F : exists out, written pix ms mm near files = Ok out /\ match out with Some (c, _) => c | None => [] end = flat_map (adds pix ms near nside) files).
  { destruct files as [|f0 l]; [congruence|]. unfold written. destruct (Hr f0 (or_introl eq_refl)) as [h0 E0]. rewrite E0. cbv iota beta. 
  pose proof (fold_form pix ms mm near nside _ Hr None) as FF; unfold outfiles in *; rewrite FF; clear FF. eexists. split; [reflexivity|]. destruct (flat_map _ _); reflexivity. }
  destruct F as (out & E & C). exists out. split; [exact E|]. cbv zeta. rewrite C. split.
  - intros r Hin. apply in_flat_map in Hin. destruct Hin as (f & Hf & Ha). destruct (Hr f Hf) as [h Eh]. unfold adds in Ha. rewrite Eh in Ha. apply filter_In in Ha. destruct Ha as [Ha Hp]. apply Z.eqb_eq in Hp.
    destruct (spec_in _ _ _ _ _ Ha) as (s & Hs & Sm). exists f, h, s. destruct Sm as (S1 & S2 & S3). rewrite S2. repeat split; assumption.
  - intros f h s Hf Eh Hs Hp. destruct (in_spec ms near h (f_cat f) s Hs) as (r & Hin & Sm). exists r. split; [|exact Sm]. apply in_flat_map. exists f. split; [exact Hf|]. unfold adds. rewrite Eh. apply filter_In. split; [exact Hin|].
    destruct Sm as (_ & S2 & _). rewrite <- S2. apply Z.eqb_eq, Hp.
Qed.
Print Assumptions C129_exact.
(** C129: no cluster is there twice. *)
Theorem C129_once : forall pix ms mm near nside files out, one_run nside files -> one_input files ->
  written pix ms mm near files = Ok out -> NoDup (map r_id (match out with Some (c, _) => c | None => [] end)).
Proof.
  intros pix ms mm near nside files out [Hr Hd] [Hi1 Hi2] E.
  assert (C : match out with Some (c, _) => c | None => [] end = flat_map (adds pix ms near nside) files).
  { destruct files as [|f0 l]; [discriminate E|]. unfold written in E. destruct (Hr f0 (or_introl eq_refl)) as [h0 E0]. rewrite E0 in E. cbv iota beta in E. pose proof (fold_form pix ms mm near nside _ Hr None) as FF; unfold outfiles in *; rewrite FF in E; clear FF. match type of E with Ok ?x = Ok ?y => assert (Eo : y = x) by congruence end. rewrite Eo. match goal with |- context [match ?q with [] => None | _ => _ end] => destruct q; reflexivity end. }
  rewrite C. clear C E out. induction files as [|f l IH]; [constructor|]. cbn [flat_map]. rewrite map_app.
  assert (Nd : forall a b : list Z, NoDup a -> NoDup b -> (forall x, In x a -> ~ In x b) -> NoDup (a ++ b)%list).
  { clear. induction a as [|x a IH]; intros b Ha Hb Hd; [exact Hb|]. inversion Ha; subst. cbn [app]. constructor; [intros Hx; apply in_app_iff in Hx; destruct Hx as [Hx|Hx]; [contradiction|apply (Hd x (or_introl eq_refl) Hx)]|]. apply IH; [assumption|assumption|intros y Hy; apply Hd; right; exact Hy]. }
  apply Nd.
  - destruct (Hr f (or_introl eq_refl)) as [h Eh]. unfold adds. rewrite Eh.
    assert (Nf : forall l : list row, forall p, NoDup (map r_id l) -> NoDup (map r_id (filter p l))).
    { clear. induction l as [|r l IH]; intros p H; [constructor|]. inversion H; subst. cbn [filter]. destruct (p r); [|apply IH; assumption]. cbn [map]. constructor; [|apply IH; assumption].
      intros Hx. apply in_map_iff in Hx. destruct Hx as (s & Es & Hs). apply filter_In in Hs. apply H2. rewrite <- Es. apply in_map. tauto. }
    apply Nf. rewrite spec_ids. apply Hi1. left. reflexivity.
  - apply IH; [intros g Hg; apply Hr; right; exact Hg|cbn [map] in Hd; inversion Hd; assumption|intros g Hg; apply Hi1; right; exact Hg|intros a b r s Ha Hb; apply Hi2; right; assumption].
  - intros x Hx Hy. apply in_map_iff in Hx. destruct Hx as (r & <- & Hin). apply in_map_iff in Hy. destruct Hy as (s & Es & Hs). apply in_flat_map in Hs. destruct Hs as (g & Hg & Hs).
    destruct (Hr f (or_introl eq_refl)) as [h Eh]. destruct (Hr g (or_intror Hg)) as [h' Eh']. unfold adds in Hin, Hs. rewrite Eh in Hin. rewrite Eh' in Hs.
    apply filter_In in Hin. apply filter_In in Hs. destruct Hin as [Hin P1]. destruct Hs as [Hs P2]. apply Z.eqb_eq in P1, P2.
    destruct (spec_in _ _ _ _ _ Hin) as (r0 & R0 & (A1 & A2 & _)). destruct (spec_in _ _ _ _ _ Hs) as (s0 & S0 & (B1 & B2 & _)).
    assert (Ep : r_pos r0 = r_pos s0) by (apply (Hi2 f g); [left; reflexivity|right; exact Hg|exact R0|exact S0|congruence]).
    assert (Ehh : f_name f = f_name g) by congruence. cbn [map] in Hd. apply NoDup_cons_iff in Hd. destruct Hd as [Hn _]. apply Hn. rewrite Ehh. apply in_map, Hg.
Qed.
Print Assumptions C129_once.
Example C129_ex : let pix := fun n p => Z.div p (10 * n) in let f1 := mkFile (Some (1, 0)) [mkRow 1 3 0 0; mkRow 2 12 0 0] [] in let f2 := mkFile (Some (1, 1)) [mkRow 2 12 0 0; mkRow 3 15 0 0] [] in
  one_run 1 [f1; f2] /\ one_input [f1; f2] /\ written pix true false (fun _ p => if p =? 12 then Some 77 else None) [f1; f2] = Ok (Some ([mkRow 1 3 (-1) 0; mkRow 2 12 77 0; mkRow 3 15 (-1) 0], None)).
Proof.
  cbv zeta. split; [split; [intros f [<-|[<-|[]]]; eexists; reflexivity|repeat constructor; cbn; intuition congruence]|]. split; [|vm_compute; reflexivity].
  split; [intros f [<-|[<-|[]]]; cbn; repeat constructor; cbn; intuition congruence|].
  intros f g r s [<-|[<-|[]]] [<-|[<-|[]]] [<-|[<-|[]]] [<-|[<-|[]]]; cbn; congruence.
Qed.
(** C129: spectroscopic redshifts are replaced where they are asked for, and only there. *)
Theorem C129_spec : forall pix mm near files c m, written pix false mm near files = Ok (Some (c, m)) -> forall r, In r c -> exists f, In f files /\ In r (f_cat f).
Proof.
  intros pix mm near files c m E. unfold written in E. destruct files as [|f0 l]; [discriminate|]. destruct (f_name f0) as [[nside h0]|]; [|discriminate].
  revert c m E. set (fs := f0 :: l). clearbody fs. clear f0 l h0.
  assert (G : forall fs0 out, (forall c m, out = Some (c, m) -> forall r, In r c -> exists f, In f fs /\ In r (f_cat f)) -> incl fs0 fs ->
    forall c m, fold_left (one pix false mm near nside) fs0 (Ok out) = Ok (Some (c, m)) -> forall r, In r c -> exists f, In f fs /\ In r (f_cat f)).
  { induction fs0 as [|f t IH]; intros out Ho Hi c m E; cbn [fold_left] in E; [injection E as E; eapply Ho, E|].
    assert (Err : forall e l, fold_left (one pix false mm near nside) l (Err e) = Err e) by (clear; induction l as [|x l IH]; [reflexivity|exact IH]).
    unfold one at 2 in E. cbn [bind] in E. destruct (f_name f) as [[n h]|]; [|rewrite Err in E; discriminate]. cbn [spec_of] in E.
    set (cat := filter (fun r => pix nside (r_pos r) =? h) (f_cat f)) in *. assert (Hc : forall r, In r cat -> exists g, In g fs /\ In r (f_cat g)) by (intros r Hr; apply filter_In in Hr; exists f; split; [apply Hi; left; reflexivity|tauto]).
    assert (Hi' : incl t fs) by (intros x Hx; apply Hi; right; exact Hx).
    destruct cat as [|r0 t0] eqn:Ec; [eapply IH; [exact Ho|exact Hi'|exact E]|]. destruct out as [[c0 m0]|]; (eapply IH; [|exact Hi'|exact E]); intros c' m' [= <- <-] r Hr.
    - apply in_app_iff in Hr. destruct Hr as [Hr|Hr]; [eapply Ho; [reflexivity|exact Hr]|apply Hc, Hr].
    - apply Hc, Hr. }
  intros c m E. eapply G; [|apply incl_refl|exact E]. intros ? ? [=].
Qed.
Print Assumptions C129_spec.

(** * C130 *)
(** C130, for pixels all of whose clusters lie in them: the members written are those of the clusters written. *)
Theorem C130_members_partial : forall pix ms near nside files c m, one_run nside files ->
  (forall f h r, In f files -> f_name f = Some (nside, h) -> In r (f_cat f) -> pix nside (r_pos r) = h) ->
  (forall f r, In f files -> In r (f_mem f) -> exists s, In s (f_cat f) /\ r_id s = r_id r) ->
  written pix ms true near files = Ok (Some (c, Some m)) ->
  (forall r, In r m -> exists s, In s c /\ r_id s = r_id r) /\ (forall f r, In f files -> In r (f_mem f) -> exists s, In s m /\ same r s).
Proof.
  intros pix ms near nside files c m [Hr _] Hp Hm E. destruct files as [|f0 l]; [discriminate E|]. unfold written in E. destruct (Hr f0 (or_introl eq_refl)) as [h0 E0]. rewrite E0 in E. cbv iota beta in E. clear h0 E0.
  pose proof (fold_form pix ms true near nside _ Hr None) as FF; unfold outfiles in *; rewrite FF in E; clear FF. set (fs := f0 :: l) in *. clearbody fs. clear f0 l.
  assert (Ec : flat_map (adds pix ms near nside) fs = c /\ flat_map (mem_adds pix ms near nside) fs = m) by (destruct (flat_map (adds pix ms near nside) fs); [discriminate|injection E as <- <-; auto]).
  destruct Ec as [<- <-]. clear E. split.
  - intros r H. apply in_flat_map in H. destruct H as (f & Hf & H). destruct (Hr f Hf) as [h Eh]. unfold mem_adds in H. rewrite Eh in H. destruct (adds pix ms near nside f) as [|a t] eqn:A; [destruct H|].
    destruct (spec_in _ _ _ _ _ H) as (r0 & R0 & (I & _)). destruct (Hm f r0 Hf R0) as (s & Hs & Is). destruct (in_spec ms near h _ _ Hs) as (s' & Hs' & (J & K & _)).
    exists s'. split; [|congruence]. apply in_flat_map. exists f. split; [exact Hf|]. unfold adds. rewrite Eh. apply filter_In. split; [exact Hs'|]. rewrite <- K. apply Z.eqb_eq, (Hp f h); assumption.
  - intros f r Hf H. destruct (Hr f Hf) as [h Eh]. destruct (Hm f r Hf H) as (s & Hs & _). destruct (in_spec ms near h _ _ Hs) as (s' & Hs' & (_ & K & _)).
    destruct (in_spec ms near h _ _ H) as (r' & Hr' & Sm). exists r'. split; [|exact Sm]. apply in_flat_map. exists f. split; [exact Hf|]. unfold mem_adds. rewrite Eh.
    assert (A : In s' (adds pix ms near nside f)) by (unfold adds; rewrite Eh; apply filter_In; split; [exact Hs'|rewrite <- K; apply Z.eqb_eq, (Hp f h); assumption]).
    destruct (adds pix ms near nside f); [destruct A|exact Hr'].
Qed.
Print Assumptions C130_members_partial.
(** Finding: members are not cut with the clusters: if one cluster of a pixel is kept, the members of all its clusters are written,
    also of those that are left to the neighboring pixel; those clusters' members are there twice. *)
Theorem C130_members_refuted : exists pix files c m, one_run 1 files /\ one_input files /\ written pix false true (fun _ _ => None) files = Ok (Some (c, Some m)) /\
  NoDup (map r_id c) /\ (forall f, In f files -> NoDup (f_mem f)) /\ ~ NoDup m.
Proof.
  exists (fun n p => Z.div p (10 * n)). pose (a := mkRow 1 3 0 0). pose (b := mkRow 2 12 0 0). pose (mb := mkRow 2 13 0 5).
  exists [mkFile (Some (1, 0)) [a; b] [mkRow 1 4 0 5; mb]; mkFile (Some (1, 1)) [b] [mb]], [a; b], [mkRow 1 4 0 5; mb; mb].
  split; [split; [intros f [<-|[<-|[]]]; eexists; reflexivity|repeat constructor; cbn; intuition congruence]|].
  split; [split; [intros f [<-|[<-|[]]]; cbn; repeat constructor; cbn; intuition congruence|intros f g r s [<-|[<-|[]]] [<-|[<-|[]]]; cbn; intuition (subst; cbn in *; congruence)]|].
  split; [vm_compute; reflexivity|]. split; [cbn; repeat constructor; cbn; intuition congruence|]. split.
  - intros f [<-|[<-|[]]]; cbn; repeat constructor; cbn; unfold mb; intuition congruence.
  - intros H. apply NoDup_cons_iff in H. destruct H as [_ H]. apply NoDup_cons_iff in H. apply (proj1 H). left. reflexivity.
Qed.
Print Assumptions C130_members_refuted.
(** Finding: with plots, as is the default, the consolidation always ends in an error after the files are written, by a name that is
    not defined; without plots it ends well. *)
Theorem C130_plots_refuted : forall pix ms mm near nside files, files <> [] -> one_run nside files ->
  (exists e, run pix true ms mm near files = Err e) /\ run pix false ms mm near files = Ok tt.
Proof.
  intros pix ms mm near nside files Hn Hr. destruct (C129_exact pix ms mm near nside files Hn Hr) as (out & E & _). unfold run. rewrite E. cbn [bind]. split; [destruct out; eexists; reflexivity|reflexivity].
Qed.
Print Assumptions C130_plots_refuted.
(** Finding: the resolution of the pixels is that of the first file; with files of another resolution in the directory - of another
    run with the same base name - clusters are judged by the wrong pixels and can be lost. *)
Theorem C130_nside_refuted : exists pix files r, (forall f h n r', In f files -> f_name f = Some (n, h) -> In r' (f_cat f) -> pix n (r_pos r') = h) /\
  (exists f, In f files /\ In r (f_cat f)) /\ exists c m, written pix false false (fun _ _ => None) files = Ok (Some (c, m)) /\ ~ In r c.
Proof.
  exists (fun n p => Z.div p (10 * n)). exists [mkFile (Some (1, 0)) [mkRow 1 3 0 0] []; mkFile (Some (2, 1)) [mkRow 2 35 0 0] []], (mkRow 2 35 0 0). split; [|split].
  - intros f h n r' [<-|[<-|[]]] [= <- <-] [<-|[]]; reflexivity.
  - exists (mkFile (Some (2, 1)) [mkRow 2 35 0 0] []). cbn. auto.
  - exists [mkRow 1 3 0 0], None. split; [vm_compute; reflexivity|]. intros [H|[]]. discriminate.
Qed.
Print Assumptions C130_nside_refuted.
