(** What is computed in the bins between redshift nodes: calibration/zlambdacal.py:219-232 (the
    check that all bins have clusters), calibration/redsequencecal.py:255-312 (_compute_startvals), calibration/calibrate.py:512-533
    (the check of the corrected redshifts).  Rational arithmetic. *)
From Coq Require Import QArith Qround Qabs.
From Verif.Base Require Import Py.
From Verif.Model Require Import Util Maskgals.
From Coq Require Import Lia List. Import ListNotations.
Local Open Scope Q_scope.

(** ** zlambdacal.py:219-234 *)
Record ccl := mkCC { cc_lam : Q; cc_scale : Q; cc_maskfrac : Q; cc_z : Q; cc_zl : Q; cc_zle : Q }.
Definition calib_use (minlambda maxfrac : Q) (c : ccl) : bool :=
  Qlt_bool minlambda (cc_lam c / cc_scale c) && Qlt_bool 0 (cc_scale c) && Qlt_bool (cc_maskfrac c) maxfrac.
(** numpy.histogram(x, bins=nodes): half-open bins, the last one closed *)
Fixpoint np_histogram (nodes : list Q) (xs : list Q) : list nat :=
  match nodes with
  | a :: ((b :: t) as rest) =>
      List.length (filter (fun x => Qle_bool a x && (if match t with [] => true | _ => false end then Qle_bool x b else Qlt_bool x b)) xs)
      :: np_histogram rest xs
  | _ => []
  end.
Definition select_calib (minlambda maxfrac : Q) (nodes : list Q) (cat : list ccl) : res (list ccl) :=
  let use := filter (calib_use minlambda maxfrac) cat in
  match np_histogram nodes (map cc_z use) with
  | [] => Err ValueError                         (* min of an empty array *)
  | h => if existsb (Nat.eqb 0) h then Err RuntimeError else Ok use
  end.
(** 278: the first removal of outliers *)
Definition not_outlier (c : ccl) : bool := Qlt_bool (Qabs (cc_z c - cc_zl c)) (3 * cc_zle c).

(** ** redsequencecal.py:258-312, with median=True *)
(** 275-284: the limits of node i *)
Definition half (a b : Q) : Q := (a + b) / 2.
Definition node_lo (nodes : list Q) (i : nat) : Q := match i with O => nth 0 nodes 0 | S j => half (nth j nodes 0) (nth i nodes 0) end.
Definition node_hi (nodes : list Q) (i : nat) : Q :=
  if Nat.eqb i (List.length nodes - 1) then nth i nodes 0 else half (nth i nodes 0) (nth (S i) nodes 0).
Definition in_node (nodes : list Q) (i : nat) (z : Q) : bool := Qlt_bool (node_lo nodes i) z && Qlt_bool z (node_hi nodes i).
(** 286-300: the values of one node from those of the one before *)
Definition node_val (mincomp : nat) (nodes : list Q) (gals : list (Q * Q)) (prev : Q * Q) (i : nat) : Q * Q :=
  let u := map snd (filter (fun zv => in_node nodes i (fst zv)) gals) in
  if Nat.ltb (List.length u) mincomp then prev
  else let m := medianQ u in (m, medianQ (map (fun v => Qabs (v - m)) u)).
Fixpoint startvals_from (mincomp : nat) (nodes : list Q) (gals : list (Q * Q)) (prev : Q * Q) (is : list nat) : list (Q * Q) :=
  match is with
  | [] => []
  | i :: t => let v := node_val mincomp nodes gals prev i in v :: startvals_from mincomp nodes gals v t
  end.
(** [gals]: redshift and value; the result: median and median deviation *)
Definition startvals (mincomp : nat) (nodes : list Q) (gals : list (Q * Q)) : list (Q * Q) :=
  startvals_from mincomp nodes gals (0, 0) (seq 0 (List.length nodes)).

(** ** calibrate.py:525-533: the redshifts after the correction; [cluster] is the last one of the loop *)
Definition check_corrected (correct : Q -> Q) (zls : list Q) : res (list Q) :=
  let zs := map correct zls in
  match rev zs with
  | [] => Err NameError                          (* cluster is not defined *)
  | z :: _ => if Qlt_bool z 0 then Err RuntimeError else Ok zs
  end.
