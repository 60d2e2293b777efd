(** Python / numpy primitives used by the model of redmapper.
    Exceptions are values; array operations are list functions. *)
From Coq Require Export List Arith ZArith QArith Bool Lia.
Export ListNotations.
Close Scope Q_scope.
Open Scope nat_scope.
Open Scope list_scope.
Arguments Qplus : simpl never.
Arguments Qmult : simpl never.
Arguments Qminus : simpl never.
Arguments Qopp : simpl never.
Arguments Qdiv : simpl never.
Arguments Qinv : simpl never.
Arguments Qle_bool : simpl never.

(** Exceptions raised by the modelled code. *)
Inductive exn : Type :=
| ValueError | RuntimeError | KeyError | TypeError | NameError | AttributeError
| IndexError | NotImplementedError | IOError | OSError | ZeroDivisionError
| UnboundLocalError.

Inductive res (A : Type) : Type :=
| Ok (a : A)
| Err (e : exn).
Arguments Ok {A} a.
Arguments Err {A} e.

Definition bind {A B} (m : res A) (f : A -> res B) : res B :=
  match m with Ok a => f a | Err e => Err e end.
Notation "'do' x <- m ; f" := (bind m (fun x => f))
  (at level 200, x pattern, m at level 100, f at level 200).

Definition is_ok {A} (m : res A) : bool := match m with Ok _ => true | Err _ => false end.

(** [np.where(mask)[0]]: the positions at which [p] holds, in increasing order. *)
Fixpoint where_from {A} (p : A -> bool) (i : nat) (l : list A) : list nat :=
  match l with
  | [] => []
  | x :: t => if p x then i :: where_from p (S i) t else where_from p (S i) t
  end.
Definition np_where {A} (p : A -> bool) (l : list A) : list nat := where_from p 0 l.

(** [arr[idx]] with an index array: IndexError when an index is out of range
    (negative indices are modelled by the callers that can produce them). *)
Fixpoint np_take {A} (l : list A) (idx : list nat) : res (list A) :=
  match idx with
  | [] => Ok []
  | i :: t =>
      match nth_error l i with
      | None => Err IndexError
      | Some x => do r <- np_take l t; Ok (x :: r)
      end
  end.

(** Total variant for index arrays that are in range by construction. *)
Fixpoint np_sel {A} (l : list A) (idx : list nat) : list A :=
  match idx with
  | [] => []
  | i :: t => match nth_error l i with
              | None => np_sel l t
              | Some x => x :: np_sel l t
              end
  end.

(** [np.searchsorted(a, x, side)] for a sorted array [a]: length of the longest
    prefix of elements [< x] (side left) or [<= x] (side right).  For sorted
    arrays this is numpy's documented result; numpy leaves it unspecified for
    unsorted ones. *)
Fixpoint prefix_len {A} (p : A -> bool) (l : list A) : nat :=
  match l with
  | [] => 0
  | x :: t => if p x then S (prefix_len p t) else 0
  end.

Definition Qlt_bool (x y : Q) : bool := negb (Qle_bool y x).
Definition ss_left (a : list Q) (x : Q) : nat := prefix_len (fun y => Qlt_bool y x) a.
Definition ss_right (a : list Q) (x : Q) : nat := prefix_len (fun y => Qle_bool y x) a.

(** [np.clip(x, lo, hi)] on integers: [minimum(maximum(x, lo), hi)]. *)
Definition clipZ (lo hi x : Z) : Z := Z.min (Z.max x lo) hi.
Definition Qmin2 (x y : Q) : Q := if Qle_bool x y then x else y.
Definition Qmax2 (x y : Q) : Q := if Qle_bool x y then y else x.
Definition clipQ (lo hi x : Q) : Q := Qmin2 (Qmax2 x lo) hi.

(** [np.cumsum] *)
Fixpoint cumsum_from (acc : Q) (l : list Q) : list Q :=
  match l with
  | [] => []
  | x :: t => (acc + x)%Q :: cumsum_from (acc + x)%Q t
  end.
Definition cumsum (l : list Q) : list Q := cumsum_from 0%Q l.
Fixpoint Qsum (l : list Q) : Q := match l with [] => 0%Q | x :: t => (x + Qsum t)%Q end.

(** Python indexing [a[i]] with a possibly negative integer index. *)
Definition py_index {A} (l : list A) (i : Z) : res A :=
  let n := Z.of_nat (List.length l) in
  let j := if (i <? 0)%Z then (i + n)%Z else i in
  if ((j <? 0) || (n <=? j))%Z then Err IndexError
  else match nth_error l (Z.to_nat j) with Some x => Ok x | None => Err IndexError end.

(** [range(n)] and python [zip]. *)
Definition py_range (n : nat) : list nat := seq 0 n.

(** esutil.numpy_util.match(arr1, arr2): arr1 must be unique and both arrays
    non-empty (ValueError otherwise); the second result lists in increasing order the
    positions of arr2 whose value occurs in arr1, the first the matching
    positions in arr1.  (Library function: behaviour trusted, see DESIGN.md.) *)
Fixpoint index_ofZ (x : Z) (l : list Z) : option nat :=
  match l with
  | [] => None
  | y :: t => if (x =? y)%Z then Some 0
              else match index_ofZ x t with Some i => Some (S i) | None => None end
  end.
Fixpoint match_from (a1 : list Z) (j : nat) (a2 : list Z) : list nat * list nat :=
  match a2 with
  | [] => ([], [])
  | y :: t =>
      let '(s1, s2) := match_from a1 (S j) t in
      match index_ofZ y a1 with
      | Some i => (i :: s1, j :: s2)
      | None => (s1, s2)
      end
  end.
Definition nodupZ (l : list Z) : bool :=
  (fix go l := match l with
               | [] => true
               | x :: t => negb (existsb (Z.eqb x) t) && go t
               end) l.
Definition eu_match (a1 a2 : list Z) : res (list nat * list nat) :=
  if (Nat.eqb (List.length a1) 0 || Nat.eqb (List.length a2) 0)%bool then Err ValueError
  else if nodupZ a1 then Ok (match_from a1 0 a2) else Err ValueError.
