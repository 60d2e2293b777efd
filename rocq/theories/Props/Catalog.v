(** Properties C01-C04 (redmapper/catalog.py). *)
From Coq Require Import String.
From Verif.Base Require Import Py PyLemmas.
From Verif.Model Require Import Catalog.
From Verif.Spec Require Import Catalog.
From Verif.Proofs Require Import Catalog.
Open Scope string_scope.
Open Scope list_scope.

(** C01.  Building a catalog succeeds exactly when all arrays have the same number of
    rows and no two columns (of any arrays) share a lower-cased name, and the result is
    then the concatenation of all the columns. *)
Theorem C01_catalog_init : forall ts t,
  ts <> [] ->
  (catalog_init ts = Ok t <->
   exists n, Forall (fun a => nrows a = n) ts /\ NoDup (map fst (all_columns ts))
             /\ t = mkT n (all_columns ts)).
Proof. exact catalog_init_ok. Qed.
Print Assumptions C01_catalog_init.

Theorem C01_catalog_init_error : forall ts e,
  ts <> [] -> catalog_init ts = Err e -> e = ValueError.
Proof. exact catalog_init_err. Qed.
Print Assumptions C01_catalog_init_error.

Definition ex_a := mkT 2 [("RA", [10; 20]%Z); ("Dec", [1; 2]%Z)].
Definition ex_b := mkT 2 [("Mag", [21; 22]%Z)].
Definition ex_c := mkT 2 [("mag", [5; 6]%Z)].
Example C01_ex : catalog_init [ex_a; ex_b] =
  Ok (mkT 2 [("ra", [10; 20]%Z); ("dec", [1; 2]%Z); ("mag", [21; 22]%Z)]).
Proof. vm_compute. reflexivity. Qed.
(** collision between the second and the third array only *)
Example C01_ex_err : catalog_init [ex_a; ex_b; ex_c] = Err ValueError.
Proof. vm_compute. reflexivity. Qed.

(** C02.  add_fields keeps every existing cell and adds zero columns... *)
Theorem C02_add_fields : forall t ns t',
  add_fields t ns = Ok t' ->
  nrows t' = nrows t /\
  (forall x i, In x (names t) -> cell t' x i = cell t x i) /\
  (forall x i, In x ns -> i < nrows t -> cell t' (lower x) i = Some 0%Z) /\
  names t' = names t ++ map lower ns.
Proof. exact add_fields_preserves. Qed.
Print Assumptions C02_add_fields.

(** ... it succeeds whenever no name clashes, and a clash raises ValueError. *)
Theorem C02_add_fields_succeeds : forall t ns,
  NoDup (names t ++ map lower ns) -> exists t', add_fields t ns = Ok t'.
Proof. intros t ns H. eexists. apply add_fields_ok. split; [exact H|reflexivity]. Qed.
Print Assumptions C02_add_fields_succeeds.

Theorem C02_add_fields_rejects : forall t ns x,
  In x ns -> In (lower x) (names t) -> add_fields t ns = Err ValueError.
Proof. exact add_fields_rejects. Qed.
Print Assumptions C02_add_fields_rejects.

Example C02_ex : exists t', add_fields (mkT 2 [("ra", [10; 20]%Z)]) ["ZRED"] = Ok t' /\
  cell t' "ra" 1 = Some 20%Z /\ cell t' "zred" 1 = Some 0%Z.
Proof. eexists. vm_compute. auto. Qed.

Theorem C03_to_fits_file_succeeds : forall t idx, (forall j, In j idx -> j < nrows t) -> exists u, to_fits_file t (Some idx) = Ok u.
Proof. exact to_fits_file_total. Qed.
Print Assumptions C03_to_fits_file_succeeds.

(** C03.  to_fits_file(indices) writes exactly the selected rows, for tables that do not
    have exactly one row.  Missing: one-row tables, for which it is false (next). *)
Theorem C03_to_fits_file_partial : forall t idx u,
  wf t -> nrows t <> 1 -> to_fits_file t (Some idx) = Ok u ->
  nrows u = List.length idx /\ names u = names t /\
  (forall k i x, nth_error idx k = Some i -> cell u x k = cell t x i).
Proof. exact to_fits_file_partial. Qed.
Print Assumptions C03_to_fits_file_partial.

(** Finding: for a one-row table the indices are ignored: an empty index array, or one that repeats the row, still writes one row. *)
Theorem C03_to_fits_file_refuted : exists t idx u,
  wf t /\ (forall j, In j idx -> j < nrows t) /\
  to_fits_file t (Some idx) = Ok u /\ nrows u <> List.length idx.
Proof.
  exists (mkT 1 [("id", [7]%Z)]), [], (mkT 1 [("id", [7]%Z)]).
  split; [split; [repeat constructor; cbn; tauto|repeat constructor]|].
  split; [cbn; tauto|]. split; [reflexivity|discriminate].
Qed.
Print Assumptions C03_to_fits_file_refuted.

Example C03_ex : to_fits_file (mkT 3 [("id", [7; 8; 9]%Z)]) (Some [2; 0]) = Ok (mkT 2 [("id", [9; 7]%Z)]).
Proof. reflexivity. Qed.

(** C04.  Growth histories keep every row, in call order. *)
Theorem C04_growth : forall t gs r,
  grow_run t gs = Ok r ->
  nrows r = nrows t + list_sum (map piece_rows gs) /\ names r = names t /\
  (forall x v, column t x = Some v -> column r x = Some (v ++ List.concat (map (piece x) gs))).
Proof. exact grow_run_ok. Qed.
Print Assumptions C04_growth.

Theorem C04_getitem : forall t idx u,
  wf t -> getitem t idx = Ok u ->
  nrows u = List.length idx /\ names u = names t /\
  (forall k i x, nth_error idx k = Some i -> cell u x k = cell t x i) /\
  (forall j, In j idx -> j < nrows t).
Proof. exact take_rows_ok. Qed.
Print Assumptions C04_getitem.

(** C04.  Growth succeeds whenever every appended catalog has the columns of the first one. *)
Theorem C04_growth_succeeds : forall t gs,
  NoDup (names t) -> (forall u, In (GAppend u) gs -> names u = names t) -> exists r, grow_run t gs = Ok r.
Proof. exact grow_run_total. Qed.
Print Assumptions C04_growth_succeeds.

Theorem C04_getitem_succeeds : forall t idx, (forall j, In j idx -> j < nrows t) -> exists u, getitem t idx = Ok u.
Proof. exact take_rows_total. Qed.
Print Assumptions C04_getitem_succeeds.

(** C04.  A row taken out on its own (an entry) is a table of one row; anything else is refused. *)
Theorem C04_entry : forall t u, entry_init t = Ok u <->
  nrows t = 1 /\ NoDup (map fst (all_columns [t])) /\ u = mkT 1 (all_columns [t]).
Proof. exact entry_iff. Qed.
Print Assumptions C04_entry.

Example C04_ex : grow_run (mkT 1 [("id", [1]%Z)]) [GAppend (mkT 2 [("id", [2; 3]%Z)]); GExtend 1]
  = Ok (mkT 4 [("id", [1; 2; 3; 0]%Z)]).
Proof. reflexivity. Qed.

(** C61.  Assigning to a column changes that column only; a scalar fills it.
    (A one-element sequence also fills it, see C61_length_one_refuted.) *)
Theorem C61_set_attr : forall t a v t',
  set_attr t a v = Ok (Some t') ->
  nrows t' = nrows t /\ names t' = names t /\ In (lower a) (names t) /\
  (forall y, y <> lower a -> column t' y = column t y) /\
  column t' (lower a) = Some (match v with
     | Scalar z => repeat z (nrows t)
     | Seq l => match l with [z] => repeat z (nrows t) | _ => l end end) /\
  (match v with Seq l => List.length l = nrows t \/ List.length l = 1 | _ => True end).
Proof. exact set_attr_ok. Qed.
Print Assumptions C61_set_attr.

Theorem C61_set_attr_succeeds : forall t a v, In (lower a) (names t) ->
  match v with Seq l => List.length l = nrows t | Scalar _ => True end -> exists t', set_attr t a v = Ok (Some t').
Proof. exact set_attr_total. Qed.
Print Assumptions C61_set_attr_succeeds.

Theorem C61_get_attr : forall t a, get_attr t a = column t (lower a).
Proof. exact get_attr_column. Qed.
Print Assumptions C61_get_attr.

(** A sequence shorter than the catalog is not always rejected: one of length one is
    silently copied to every row. *)
Theorem C61_length_one_refuted : exists t l t',
  wf t /\ List.length l <> nrows t /\ set_attr t "zred" (Seq l) = Ok (Some t') /\
  column t' "zred" = Some [5; 5; 5]%Z.
Proof.
  exists (mkT 3 [("zred", [1; 2; 3]%Z)]), [5]%Z. eexists.
  split; [split; [repeat constructor; cbn; tauto|repeat constructor]|].
  split; [cbn; lia|]. split; [vm_compute; reflexivity|reflexivity].
Qed.
Print Assumptions C61_length_one_refuted.

Example C61_ex : set_attr (mkT 2 [("ra", [1; 2]%Z); ("z", [3; 4]%Z)]) "Z" (Seq [8; 9]%Z)
  = Ok (Some (mkT 2 [("ra", [1; 2]%Z); ("z", [8; 9]%Z)])).
Proof. reflexivity. Qed.

(** Names are compared without case: the capital letters become small ones, all other characters stay. *)
Theorem C01_case : lower "ABCDEFGHIJKLMNOPQRSTUVWXYZ" = "abcdefghijklmnopqrstuvwxyz"%string /\
  (forall c, ~ In c (list_ascii_of_string "ABCDEFGHIJKLMNOPQRSTUVWXYZ") -> lower (String c EmptyString) = String c EmptyString) /\
  (forall s t, lower (s ++ t)%string = (lower s ++ lower t)%string) /\ (forall s, lower (lower s) = lower s).
Proof.
  split; [reflexivity|]. split; [|split].
  - intros c N. destruct c as [[] [] [] [] [] [] [] []]; try reflexivity; exfalso; apply N; cbn; tauto.
  - induction s as [|c s IH]; intros t; [reflexivity|]. cbn. rewrite IH. reflexivity.
  - induction s as [|c s IH]; [reflexivity|]. cbn [lower]. rewrite IH. f_equal. destruct c as [[] [] [] [] [] [] [] []]; reflexivity.
Qed.
Print Assumptions C01_case.
