(** C146: the initial colours of red galaxies. *)
From Coq Require Import QArith Ascii String Sorted.
From Verif.Base Require Import Py PyLemmas.
From Verif.Model Require Import Names ParFile Util InitCol.
From Verif.Spec Require Import Util InitCol.
From Verif.Proofs Require Import Util Names ParFile InitCol.
From Coq Require Import Lqa Lia List. Import ListNotations.
Local Open Scope Q_scope.

(** The BANDS entry with two or more names separated by commas, or as single letters, gives back the bands, if no name ends in a
    blank.  (Missing: blanks after commas, see C146_blanks_refuted.) *)
Theorem C146_bands_partial : (forall a b l, (forall x, In x (a :: b :: l) -> plain x) -> template_bands (join (a :: b :: l)) = a :: b :: l) /\
  (forall cs : list ascii, cs <> [] -> (forall c, In c cs -> plain [c]) -> template_bands cs = map (fun c => [c]) cs).
Proof.
  split.
  - intros a b l P. unfold template_bands. rewrite join_comma. destruct (@exists_last _ (a :: b :: l)) as (l' & x & E); [discriminate|].
    assert (Px : plain x) by (apply P; rewrite E; apply in_or_app; right; left; reflexivity). destruct Px as (_ & _ & s & c & -> & Nc).
    assert (R : rstrip ws (join (a :: b :: l)) = join (a :: b :: l)).
    { assert (J : exists t, join (a :: b :: l) = (t ++ [c])%list) by (rewrite E; exact (join_last l' s c)). destruct J as (t & ->). apply rstrip_id. destruct (char_in ws c) eqn:W; [|reflexivity]. apply char_in_iff in W. exfalso. exact (Nc W). }
    rewrite R. apply split_join; [discriminate|]. intros y I. destruct (P y I) as (N & _). exact N.
  - intros cs N P. unfold template_bands. destruct (existsb (Ascii.eqb comma) cs) eqn:X.
    + apply existsb_exists in X. destruct X as (c & I & E). apply Ascii.eqb_eq in E. subst c. destruct (P _ I) as (Q & _). exfalso. apply Q. left. reflexivity.
    + f_equal. destruct (exists_last N) as (t & c & ->). apply rstrip_id. destruct (P c) as (_ & _ & s & d & E & Nd); [apply in_or_app; right; left; reflexivity|].
      destruct s as [|y s]; [|destruct s; discriminate E]. assert (c = d) by (cbn in E; congruence). subst. destruct (char_in ws d) eqn:W; [|reflexivity]. apply char_in_iff in W. exfalso. exact (Nd W).
Qed.
Print Assumptions C146_bands_partial.
(** A colour is given exactly for two neighbouring bands of the template, in their order and in either case of letters, and is that
    of the first such pair's column: at a redshift between two of the template's it lies on the line between their colours, at one
    of the template's it is its colour, and beyond the ends it continues the last line.  Every other pair is refused. *)
Theorem C146_colour_partial t b1 b2 z : (forall x, In x (template_bands (t_entry t)) -> ~ In "-"%char x) -> ~ In "-"%char b1 ->
  table_ok (List.length (template_bands (t_entry t))) (t_z t) (t_rows t) ->
  (forall i, pair_at (template_bands (t_entry t)) i b1 b2 -> (forall k, (k < i)%nat -> ~ pair_at (template_bands (t_entry t)) k b1 b2) ->
     forall j z0 z1 r0 r1, nth_error (t_z t) j = Some z0 -> nth_error (t_z t) (S j) = Some z1 -> nth_error (t_rows t) j = Some r0 -> nth_error (t_rows t) (S j) = Some r1 ->
     (j = 0%nat \/ z0 <= z) -> (S (S j) = List.length (t_z t) \/ z <= z1) ->
     exists c c0 c1, initial_colour t b1 b2 z = Ok c /\ nth_error r0 i = Some c0 /\ nth_error r1 i = Some c1 /\ on_line z0 c0 z1 c1 z c) /\
  ((forall i, ~ pair_at (template_bands (t_entry t)) i b1 b2) -> initial_colour t b1 b2 z = Err ValueError).
Proof.
  intros ND N1 (SZ & L2 & LR & LB). set (bands := template_bands (t_entry t)) in *. unfold initial_colour. fold bands.
  assert (PN : forall i, nth_error (colour_names bands) i = Some (colour_name b1 b2) <-> pair_at bands i b1 b2).
  { intros i. rewrite names_nth. split.
    - intros E. destruct (nth_error bands i) as [a|] eqn:Ea; [|discriminate E]. destruct (nth_error bands (S i)) as [b|] eqn:Eb; [|discriminate E]. assert (E' : colour_name a b = colour_name b1 b2) by congruence. apply name_eq in E'; [|apply ND; apply nth_error_In with i; exact Ea|exact N1]. exists a, b. tauto.
    - intros (a & b & -> & -> & A & B). f_equal. apply name_same; assumption. }
  destruct (index_of (colour_name b1 b2) (colour_names bands)) as [i0|] eqn:EI.
  - apply index_some in EI. destruct EI as [EI First]. split.
    + intros i Pi Fi j z0 z1 r0 r1 Ez0 Ez1 Er0 Er1 G1 G2.
      assert (i0 = i). { destruct (lt_eq_lt_dec i0 i) as [[X| X]|X]; [exfalso; apply (Fi i0 X), PN, EI|exact X|exfalso; apply (First i X), PN, Pi]. }
      subst i0. destruct Pi as (a & b & _ & Eb & _). assert (Lb : (S i < List.length bands)%nat) by (apply nth_error_Some; congruence).
      destruct (column_ok (t_rows t) i) as (v & Ev & Lv & Nv). { intros r I. pose proof (LB r I). lia. }
      rewrite Ev. cbn [bind]. pose proof (Nv _ _ Er0) as V0. pose proof (Nv _ _ Er1) as V1.
      assert (I0 : (i < List.length r0)%nat) by (pose proof (LB r0 (nth_error_In _ _ Er0)); lia). assert (I1 : (i < List.length r1)%nat) by (pose proof (LB r1 (nth_error_In _ _ Er1)); lia).
      destruct (nth_error r0 i) as [c0|] eqn:C0; [|apply nth_error_None in C0; lia]. destruct (nth_error r1 i) as [c1|] eqn:C1; [|apply nth_error_None in C1; lia].
      destruct (interpol_on v (t_z t) z j z0 z1 c0 c1 SZ ltac:(lia) Ez0 Ez1 V0 V1 G1 G2) as (y & Ey & On). exists y, c0, c1. auto.
    + intros H. exfalso. apply (H i0), PN, EI.
  - apply index_none in EI. split.
    + intros i Pi. exfalso. apply EI. apply nth_error_In with i. apply PN, Pi.
    + reflexivity.
Qed.
Print Assumptions C146_colour_partial.
(** Finding: with a blank after the commas of the BANDS entry, as in "g, r", no colour of the second band is found under its name. *)
Theorem C146_blanks_refuted zs rows z : initial_colour (mkTemplate (list_ascii_of_string "g, r, i") zs rows) (list_ascii_of_string "g") (list_ascii_of_string "r") z = Err ValueError /\
  initial_colour (mkTemplate (list_ascii_of_string "g, r, i") zs rows) (list_ascii_of_string "r") (list_ascii_of_string "i") z = Err ValueError.
Proof. split; reflexivity. Qed.
Print Assumptions C146_blanks_refuted.
(** Finding: bands with a dash in their names are mixed up: with the bands "a-b" and "c", the colour of "a" and "b-c" is given,
    which are no bands of the template. *)
Theorem C146_dash_refuted zs rows z : initial_colour (mkTemplate (list_ascii_of_string "a-b,c") zs rows) (list_ascii_of_string "a") (list_ascii_of_string "b-c") z =
  initial_colour (mkTemplate (list_ascii_of_string "a-b,c") zs rows) (list_ascii_of_string "a-b") (list_ascii_of_string "c") z /\
  ~ In (list_ascii_of_string "a") (template_bands (list_ascii_of_string "a-b,c")).
Proof. split; [reflexivity|]. cbn. intros [H|[H|[]]]; discriminate H. Qed.
Print Assumptions C146_dash_refuted.
(** Finding: a BANDS entry with a single name of several letters is read as that many bands. *)
Theorem C146_single_refuted : template_bands (list_ascii_of_string "decam") = map (fun c => [c]) (list_ascii_of_string "decam").
Proof. reflexivity. Qed.
Print Assumptions C146_single_refuted.
(** The file among the package's data is used if there is one, then the one on disk; otherwise an error. *)
Theorem C146_file package disk : match open_template package disk with
  | Ok t => package = Some t \/ (package = None /\ disk = Some t)
  | Err e => e = IOError /\ package = None /\ disk = None end.
Proof. destruct package, disk; cbn; auto. Qed.
Print Assumptions C146_file.
Definition C146_t : template := mkTemplate (list_ascii_of_string "g,R,i") [1#10; 2#10; 4#10] [[1; 1#2]; [2; 1]; [3; 1]].
Example C146_example : (forall x, In x (template_bands (t_entry C146_t)) -> plain x) /\ table_ok 3 (t_z C146_t) (t_rows C146_t) /\
  pair_at (template_bands (t_entry C146_t)) 0 (list_ascii_of_string "G") (list_ascii_of_string "r") /\
  (exists c, initial_colour C146_t (list_ascii_of_string "g") (list_ascii_of_string "r") (3#10) = Ok c /\ c == 5#2) /\
  initial_colour C146_t (list_ascii_of_string "g") (list_ascii_of_string "i") (3#10) = Err ValueError.
Proof.
  split.
  { intros x I. cbn in I. destruct I as [<-|[<-|[<-|[]]]]; (split; [intros [X|[]]; discriminate X|]; split; [intros [X|[]]; discriminate X|]; exists []; eexists; split; [reflexivity|]; cbn; intros H; repeat destruct H as [H|H]; discriminate H || exact H). }
  split. { split; [repeat constructor|]. split; [cbn; lia|]. split; [reflexivity|]. intros r [<-|[<-|[<-|[]]]]; reflexivity. }
  split. { exists (list_ascii_of_string "g"), (list_ascii_of_string "R"). split; [reflexivity|]. split; [reflexivity|]. split; (constructor; [|constructor]). - right. left. cbn. tauto. - right. right. cbn. tauto. }
  split; [|reflexivity]. eexists. split; [reflexivity|]. reflexivity.
Qed.
