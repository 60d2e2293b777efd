From Coq Require Import ZArith String.
From Verif.Base Require Import Py PyLemmas.
From Verif.Model Require Import RedRun.
From Verif.Spec Require Import RedRun.
From Coq Require Import Lia List. Import ListNotations.

Lemma put_same {A} (d : disk A) a x : put d a x a = Some x.
Proof. unfold put, same_place. destruct (list_eq_dec string_dec a a); [reflexivity|contradiction]. Qed.
Lemma put_other {A} (d : disk A) a x q : a <> q -> put d a x q = d q.
Proof. unfold put, same_place. intros N. destruct (list_eq_dec string_dec a q); [contradiction|reflexivity]. Qed.
Lemma clean_filter cwd : clean cwd -> filter (fun s => negb (dot s)) cwd = cwd.
Proof.
  intros [A B]. induction cwd as [|x t IH]; [reflexivity|]. cbn. assert (dot x = false) as ->.
  { unfold dot. destruct (String.eqb_spec x "."); [exfalso; apply A; left; assumption|]. destruct (String.eqb_spec x ""); [exfalso; apply B; left; assumption|reflexivity]. }
  cbn. f_equal. apply IH; intros I; [apply A|apply B]; right; exact I.
Qed.
Lemma place_name cwd n : clean cwd -> n <> "."%string -> n <> ""%string -> place cwd (mkPath false [n]) = cwd ++ [n].
Proof.
  intros C A B. unfold place. cbn [p_abs p_comps]. rewrite filter_app, clean_filter by exact C. cbn. unfold dot. destruct (String.eqb_spec n "."); [contradiction|]. destruct (String.eqb_spec n ""); [contradiction|]. reflexivity.
Qed.
Lemma place_join cwd o n : n <> "."%string -> n <> ""%string -> place cwd (pjoin o (mkPath false [n])) = place cwd o ++ [n].
Proof.
  intros A B. unfold place, pjoin. cbn [p_abs p_comps]. assert (E : filter (fun s => negb (dot s)) [n] = [n]) by (cbn; unfold dot; destruct (String.eqb_spec n "."); [contradiction|]; destruct (String.eqb_spec n ""); [contradiction|]; reflexivity).
  destruct o as [[|] cs]; cbn [p_abs p_comps]; rewrite !filter_app, E; [reflexivity|]. rewrite app_assoc. reflexivity.
Qed.
Lemma ext_in n l : existsb (String.eqb n) l = true <-> In n l.
Proof. rewrite existsb_exists. split; [intros (x & I & E); apply String.eqb_eq in E; subst; exact I|intros I; exists n; split; [exact I|apply String.eqb_refl]]. Qed.
Lemma need_file_ok k f : need_file k f = Ok tt <-> (k = true -> f = Named true).
Proof. unfold need_file. destruct k, f as [|[|]]; split; intros H; try reflexivity; try discriminate H; try (intros; reflexivity); try (specialize (H eq_refl); discriminate H); intros X; discriminate X. Qed.
Lemma need_parts_ok k f e : need_parts k f e = Ok tt <-> (k = true -> f = Named true /\ In "CHISQBKG"%string e /\ In "ZREDBKG"%string e).
Proof.
  unfold need_parts. rewrite <- !ext_in. destruct k; [|split; [intros _ X; discriminate X|reflexivity]]. destruct f as [|[|]]; [split; [discriminate|intros H; destruct (H eq_refl) as [X _]; discriminate X]| |split; [discriminate|intros H; destruct (H eq_refl) as [X _]; discriminate X]].
  destruct (existsb _ e), (existsb _ e); split; intros H; try reflexivity; try discriminate H; try (intros; auto); destruct (H eq_refl) as (_ & X & Y); discriminate.
Qed.
