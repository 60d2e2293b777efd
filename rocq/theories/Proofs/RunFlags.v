(** Lemmas for Props/RunFlags.v *)
From Coq Require Import QArith Ascii String.
From Verif.Base Require Import Py PyLemmas.
From Verif.Model Require Import Names RunFlags.
From Verif.Spec Require Import RunFlags.
From Coq Require Import Lia List. Import ListNotations.
Local Open Scope list_scope.

Lemma run_passes_ok c k a : exists l, run_passes c k a = Ok l /\ map d_shares l = sharing k /\ map d_records l = recording k /\
  forall d, In d l -> d_corrects d = finished k /\ d_density d = finished k /\ d_slopes d = finished k.
Proof.
  destruct k as [| [] | | | | [] |]; eexists; (split; [reflexivity|]); (split; [reflexivity|]); (split; [reflexivity|]);
    cbn [In]; intros d H; repeat (destruct H as [<- | H]; [repeat split; reflexivity|]); contradiction.
Qed.
Lemma name_inj p v b x y : redmapper_filename p x v b = redmapper_filename p y v b -> x = y.
Proof.
  unfold redmapper_filename. intros H. apply app_inv_head in H. apply app_inv_head in H. apply app_inv_head in H. apply app_inv_head in H.
  apply app_inv_tail in H. unfold s_ in H. apply (f_equal string_of_list_ascii) in H. rewrite !string_of_list_ascii_of_string in H. exact H.
Qed.
Lemma write_same d n t c : write d n t c n = if c then [t] else d n ++ [t].
Proof. unfold write, same. destruct (list_eq_dec ascii_dec n n); congruence. Qed.
Lemma write_other d n t c m : m <> n -> write d n t c m = d m.
Proof. unfold write, same. destruct (list_eq_dec ascii_dec m n); congruence. Qed.
Lemma types_differ j k x y : In x ["_catalog"; "_catalog_members"]%string -> In y ["_catalog"; "_catalog_members"]%string ->
  (filetype j ++ x)%string = (filetype k ++ y)%string -> same_kind j k /\ x = y.
Proof.
  cbn [In]. intros [<-|[<-|[]]] [<-|[<-|[]]]; destruct j as [| [] | | | | m |], k as [| [] | | | | m' |]; cbn; intros H; split; auto; discriminate H.
Qed.
Lemma type_pair k : (filetype k ++ "_catalog")%string <> (filetype k ++ "_catalog_members")%string.
Proof. destruct k as [| [] | | | | m |]; discriminate. Qed.
Lemma version_longer p n : redmapper_filename p n true None <> redmapper_filename p n false None.
Proof.
  unfold redmapper_filename. intros H. apply (f_equal (@List.length _)) in H. rewrite !app_length in H. cbn [List.length s_ list_ascii_of_string] in H. lia.
Qed.
