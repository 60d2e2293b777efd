From Coq Require Import QArith Ascii String Sorted.
From Verif.Base Require Import Py PyLemmas.
From Verif.Model Require Import Names ParFile Util InitCol.
From Verif.Spec Require Import Util InitCol.
From Verif.Proofs Require Import Util Names ParFile ProdNames.
From Coq Require Import Lqa Lia List. Import ListNotations.
Local Open Scope Q_scope.

Definition all_ascii : list ascii := map ascii_of_nat (seq 0 256).
Lemma all_ascii_in c : In c all_ascii.
Proof.
  unfold all_ascii. apply in_map_iff. exists (nat_of_ascii c). split; [apply ascii_nat_embedding|]. apply in_seq. pose proof (nat_ascii_bounded c). lia.
Qed.
Definition same_charb (x y : ascii) : bool :=
  (Ascii.eqb x y || existsb (fun p => Ascii.eqb (fst p) x && Ascii.eqb (snd p) y) (combine small capital) || existsb (fun p => Ascii.eqb (fst p) y && Ascii.eqb (snd p) x) (combine small capital))%bool.
Lemma pair_in (l : list (ascii * ascii)) x y : existsb (fun p => Ascii.eqb (fst p) x && Ascii.eqb (snd p) y)%bool l = true <-> In (x, y) l.
Proof.
  rewrite existsb_exists. split.
  - intros ([a b] & I & E). cbn in E. apply andb_prop in E. destruct E as [E1 E2]. apply Ascii.eqb_eq in E1, E2. subst. exact I.
  - intros I. exists (x, y). split; [exact I|]. cbn. rewrite !Ascii.eqb_refl. reflexivity.
Qed.
Lemma same_charb_iff x y : same_charb x y = true <-> same_char x y.
Proof.
  unfold same_charb, same_char. rewrite !Bool.orb_true_iff, !pair_in. rewrite Ascii.eqb_eq. tauto.
Qed.
Lemma up_table : forallb (fun x => forallb (fun y => Bool.eqb (Ascii.eqb (up x) (up y)) (same_charb x y)) all_ascii) all_ascii = true.
Proof. vm_compute. reflexivity. Qed.
Lemma up_same x y : up x = up y <-> same_char x y.
Proof.
  pose proof up_table as T. rewrite forallb_forall in T. specialize (T x (all_ascii_in x)). rewrite forallb_forall in T. specialize (T y (all_ascii_in y)). apply Bool.eqb_prop in T. rewrite <- same_charb_iff, <- T. symmetry. apply Ascii.eqb_eq.
Qed.
Lemma dash_table : forallb (fun x => Bool.eqb (Ascii.eqb (up x) dash) (Ascii.eqb x dash)) all_ascii = true.
Proof. vm_compute. reflexivity. Qed.
Lemma up_dash x : up x = dash -> x = dash.
Proof.
  pose proof dash_table as T. rewrite forallb_forall in T. specialize (T x (all_ascii_in x)). apply Bool.eqb_prop in T. intros E. rewrite E, Ascii.eqb_refl in T. symmetry in T. apply Ascii.eqb_eq in T. exact T.
Qed.
Lemma map_up a b : map up a = map up b <-> same_band a b.
Proof.
  unfold same_band. split.
  - revert b. induction a as [|x a IH]; intros [|y b] E; try discriminate E; constructor; cbn in E; [apply up_same; congruence|apply IH; congruence].
  - induction 1 as [|x y a b E F IH]; [reflexivity|]. cbn. f_equal; [apply up_same, E|exact IH].
Qed.
Lemma no_dash_up a : ~ In "-"%char a -> ~ In dash (map up a).
Proof. intros N I. apply in_map_iff in I. destruct I as (x & E & I). apply up_dash in E. subst. exact (N I). Qed.
Lemma split_dash (a b c d : str) : ~ In dash a -> ~ In dash c -> (a ++ dash :: b)%list = (c ++ dash :: d)%list -> a = c /\ b = d.
Proof.
  revert c. induction a as [|x a IH]; intros [|y c] Na Nc E; cbn in E.
  - split; congruence.
  - exfalso. apply Nc. left. congruence.
  - exfalso. apply Na. left. congruence.
  - destruct (IH c) as [E1 E2]; [intros I; apply Na; right; exact I|intros I; apply Nc; right; exact I|congruence|]. split; congruence.
Qed.
Lemma name_same a b c d : same_band a c -> same_band b d -> colour_name a b = colour_name c d.
Proof. intros A B. apply map_up in A, B. unfold colour_name. rewrite A, B. reflexivity. Qed.
Lemma name_eq a b c d : ~ In "-"%char a -> ~ In "-"%char c -> colour_name a b = colour_name c d -> same_band a c /\ same_band b d.
Proof.
  intros Na Nc E. unfold colour_name in E. apply split_dash in E; [|apply no_dash_up, Na|apply no_dash_up, Nc]. rewrite <- !map_up. exact E.
Qed.
Lemma names_nth bands i : nth_error (colour_names bands) i = match nth_error bands i, nth_error bands (S i) with Some a, Some b => Some (colour_name a b) | _, _ => None end.
Proof.
  revert i. induction bands as [|a t IH]; intros i; [destruct i; reflexivity|]. destruct t as [|b t].
  - cbn. destruct i as [|i]; [reflexivity|]. cbn. destruct (nth_error [] i) eqn:X; [destruct i; discriminate X|]. destruct i; reflexivity.
  - destruct i as [|i]; [reflexivity|]. cbn [colour_names nth_error]. rewrite IH. reflexivity.
Qed.
Lemma index_some n l i : index_of n l = Some i -> nth_error l i = Some n /\ forall k, (k < i)%nat -> nth_error l k <> Some n.
Proof.
  revert i. induction l as [|x t IH]; intros i E; [discriminate E|]. cbn in E. destruct (str_eqb x n) eqn:X.
  - assert (i = 0)%nat by congruence. subst. apply str_eqb_eq in X. subst. split; [reflexivity|intros; lia].
  - destruct (index_of n t) as [j|] eqn:J; [|discriminate E]. cbn in E. assert (i = S j) by congruence. subst. destruct (IH j eq_refl) as [A B]. split; [exact A|]. intros [|k] K; [cbn; intros Y; assert (x = n) by congruence; subst; rewrite str_eqb_refl in X; discriminate X|]. apply B. lia.
Qed.
Lemma index_none n l : index_of n l = None -> ~ In n l.
Proof.
  induction l as [|x t IH]; intros E; [intros []|]. cbn in E. destruct (str_eqb x n) eqn:X; [discriminate E|]. destruct (index_of n t); [discriminate E|]. intros [->|I]; [rewrite str_eqb_refl in X; discriminate X|exact (IH eq_refl I)].
Qed.
Lemma column_ok rows i : (forall r, In r rows -> (i < List.length r)%nat) -> exists v, column rows i = Ok v /\ List.length v = List.length rows /\
  forall k r, nth_error rows k = Some r -> nth_error v k = nth_error r i.
Proof.
  induction rows as [|r t IH]; intros H; [exists []; split; [reflexivity|]; split; [reflexivity|intros [|k]; discriminate]|]. destruct IH as (v & E & L & N); [intros; apply H; right; assumption|]. cbn. pose proof (H r (or_introl eq_refl)) as Hr. destruct (nth_error r i) as [x|] eqn:X; [|apply nth_error_None in X; lia]. unfold column in E. rewrite E. cbn. eexists. split; [reflexivity|]. split; [cbn; lia|]. intros [|k] r' Er; cbn in Er |- *; [congruence|apply N, Er].
Qed.
