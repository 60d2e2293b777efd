(** Model of redmapper/catalog.py (DataObject, Entry, Catalog).

    A structured numpy array is a row count plus an ordered list of named
    columns.  Cell contents are opaque to this file; they are represented by
    integers, [0] being the zero that [np.zeros] writes (simplification: one
    cell type for all dtypes, fixed-width truncation of strings is ignored). *)
From Verif.Base Require Import Py.
From Coq Require Import String Ascii.

Record table := mkT { nrows : nat; cols : list (string * list Z) }.

Definition names (t : table) : list string := map fst (cols t).

(** [str.lower()] on ASCII names. *)
Definition lower_ascii (c : ascii) : ascii :=
  let n := nat_of_ascii c in
  if (65 <=? n) && (n <=? 90) then ascii_of_nat (n + 32) else c.
Fixpoint lower (s : string) : string :=
  match s with
  | EmptyString => EmptyString
  | String c r => String (lower_ascii c) (lower r)
  end.

Fixpoint mem_str (x : string) (l : list string) : bool :=
  match l with [] => false | y :: t => String.eqb x y || mem_str x t end.
Fixpoint nodup_str (l : list string) : bool :=
  match l with [] => true | y :: t => negb (mem_str y t) && nodup_str t end.

(** catalog.py:197-206 [_lower_array]: rename all columns to lower case.  numpy
    raises ValueError when two names of one array coincide after lowering. *)
Definition lower_array (t : table) : res table :=
  let l := map (fun c => (lower (fst c), snd c)) (cols t) in
  if nodup_str (map fst l) then Ok (mkT (nrows t) l) else Err ValueError.

Fixpoint lower_arrays (ts : list table) : res (list table) :=
  match ts with
  | [] => Ok []
  | t :: r => do t' <- lower_array t; do r' <- lower_arrays r; Ok (t' :: r')
  end.

(** [np.zeros(size, dtype)]: all-zero columns; duplicate names raise ValueError. *)
Definition np_zeros (n : nat) (dtype : list string) : res table :=
  if nodup_str dtype then Ok (mkT n (map (fun x => (x, repeat 0%Z n)) dtype)) else Err ValueError.

(** [merged_array[name] = array[name]] (same length arrays). *)
Fixpoint set_col (l : list (string * list Z)) (x : string) (v : list Z) : list (string * list Z) :=
  match l with
  | [] => []
  | (y, w) :: t => if String.eqb x y then (y, v) :: t else (y, w) :: set_col t x v
  end.

(** catalog.py:169-185: the size and name checks, accumulating the dtype.  [names0] is
    the name list of the *first* array: the code never extends it. *)
Fixpoint merge_dtype (size : nat) (names0 : list string) (dtype : list string) (rest : list table)
  : res (list string) :=
  match rest with
  | [] => Ok dtype
  | t :: r =>
      if negb (Nat.eqb (nrows t) size) then Err ValueError
      else if existsb (fun x => mem_str x names0) (names t) then Err ValueError
      else merge_dtype size names0 (dtype ++ names t) r
  end.

(** catalog.py:190-193: copy column by column. *)
Definition fill_cols (m : list (string * list Z)) (t : table) : list (string * list Z) :=
  fold_left (fun acc c => set_col acc (fst c) (snd c)) (cols t) m.

(** catalog.py:153-195 [_merge_arrays].  With no array at all [size] is unbound. *)
Definition merge_arrays (arrays : list table) : res table :=
  match arrays with
  | [] => Err UnboundLocalError
  | t0 :: rest =>
      do dtype <- merge_dtype (nrows t0) (names t0) (names t0) rest;
      do z <- np_zeros (nrows t0) dtype;
      Ok (mkT (nrows t0) (fold_left fill_cols arrays (cols z)))
  end.

(** catalog.py:21-38 [DataObject.__init__(self, *arrays)]. *)
Definition catalog_init (arrays : list table) : res table :=
  do ls <- lower_arrays arrays;
  match ls with
  | [t] => Ok t
  | _ => merge_arrays ls
  end.

Fixpoint assoc_str {B} (x : string) (l : list (string * B)) : option B :=
  match l with
  | [] => None
  | (y, v) :: t => if String.eqb x y then Some v else assoc_str x t
  end.

(** catalog.py:84-88 [__getattr__]: the column named by the lower-cased attribute
    ([None]: falls through to ordinary attribute lookup). *)
Definition get_attr (t : table) (a : string) : option (list Z) := assoc_str (lower a) (cols t).

(** Values assigned to an attribute: a scalar or a sequence. *)
Inductive pyval := Scalar (z : Z) | Seq (l : list Z).

(** catalog.py:90-103 [__setattr__] for a column attribute ([None]: an ordinary
    instance attribute is set, the table is untouched).  Sequences of length one
    are unpacked and hence broadcast; numpy raises ValueError on other length mismatches. *)
Definition set_attr (t : table) (a : string) (v : pyval) : res (option table) :=
  if mem_str (lower a) (names t) then
    let b := match v with
             | Scalar z => Ok (repeat z (nrows t))
             | Seq [z] => Ok (repeat z (nrows t))
             | Seq l => if Nat.eqb (List.length l) (nrows t) then Ok l else Err ValueError
             end in
    do w <- b; Ok (Some (mkT (nrows t) (set_col (cols t) (lower a) w)))
  else Ok None.

(** catalog.py:112-124 [add_fields]. *)
Definition add_fields (t : table) (newnames : list string) : res table :=
  do z <- np_zeros (nrows t) newnames;
  do l <- lower_array z;
  merge_arrays [t; l].

(** [self._ndarray[indices]] *)
Definition take_cols (l : list (string * list Z)) (idx : list nat) : list (string * list Z) :=
  map (fun c => (fst c, np_sel (snd c) idx)) l.
Definition take_rows (t : table) (idx : list nat) : res table :=
  if forallb (fun i => i <? nrows t) idx
  then Ok (mkT (List.length idx) (take_cols (cols t) idx)) else Err IndexError.

(** catalog.py:126-151 [to_fits_file]: the table written to the file.  A one-row table
    is always written whole, the [indices] argument is not looked at. *)
Definition to_fits_file (t : table) (indices : option (list nat)) : res table :=
  if Nat.eqb (nrows t) 1 then Ok t
  else match indices with
       | None => Ok t
       | Some idx => take_rows t idx
       end.

(** catalog.py:285-298 [append]: [np.append] of structured arrays (TypeError for different
    fields; simplification: the field lists must coincide). *)
Fixpoint strs_eqb (a b : list string) : bool :=
  match a, b with
  | [], [] => true
  | x :: a', y :: b' => String.eqb x y && strs_eqb a' b'
  | _, _ => false
  end.
Definition app_cols (a b : list (string * list Z)) : list (string * list Z) :=
  map (fun p => (fst (fst p), snd (fst p) ++ snd (snd p))) (combine a b).
Definition append (t u : table) : res table :=
  if strs_eqb (names t) (names u)
  then Ok (mkT (nrows t + nrows u) (app_cols (cols t) (cols u))) else Err TypeError.

(** catalog.py:300-310 [extend]. *)
Definition extend (t : table) (n : nat) : res table :=
  do z <- np_zeros n (names t); append t z.

(** catalog.py:314-317 [__getitem__] with an index array. *)
Definition getitem (t : table) (idx : list nat) : res table := take_rows t idx.

(** catalog.py:230-244 [Entry.__init__]. *)
Definition entry_init (t : table) : res table :=
  if negb (Nat.eqb (nrows t) 1) then Err ValueError else catalog_init [t].

(** Histories of in-place growth. *)
Inductive grow := GAppend (u : table) | GExtend (n : nat).
Definition grow_step (t : table) (g : grow) : res table :=
  match g with GAppend u => append t u | GExtend n => extend t n end.
Fixpoint grow_run (t : table) (gs : list grow) : res table :=
  match gs with
  | [] => Ok t
  | g :: r => do t' <- grow_step t g; grow_run t' r
  end.
