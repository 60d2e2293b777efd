(** The candidates for the centre as they are recorded: centering.py:44-56 (empty slots), 102-112 (CenteringBCG), 340-349
    (CenteringWcenZred, the slots that are filled), run_percolation.py:291-324 and run_zscan.py:258-285. *)
From Coq Require Import QArith.
From Verif.Base Require Import Py.
From Verif.Model Require Import Galfile Richness.
From Coq Require Import List. Import ListNotations.

(** a neighbour: id, position and magnitudes (one value) *)
Record gal := mkGal { g_id : Z; g_pos : Q * Q; g_mag : Q }.
(** what a centering object holds: positions, indices of the neighbours, probabilities, number of candidates *)
Record cent := mkCent { ce_pos : list (Q * Q); ce_index : list Z; ce_p : list Q; ce_ngood : nat }.
Definition nowhere : Q * Q := (- (400 # 1), - (400 # 1))%Q.
(** x = full of [d]; x[0: n] = vals (n is at most the number of slots) *)
Definition filled {A} (slots : nat) (d : A) (vals : list A) : list A := vals ++ repeat d (slots - List.length vals).
(** centering.py:44-56, 340-349: [use]: the neighbours chosen, best first, [ps]: their probabilities *)
Definition wcen_cent (slots : nat) (gals : list gal) (use : list nat) (ps : list Q) : res cent :=
  do gs <- np_take gals use;
  Ok (mkCent (filled slots nowhere (map g_pos gs)) (filled slots (-1)%Z (map Z.of_nat use)) (filled slots 0%Q ps) (List.length use)).
(** centering.py:102-112: the arrays of positions are replaced by arrays of one element *)
Definition bcg_cent (slots : nat) (gals : list gal) (i : nat) : res cent :=
  do gs <- np_take gals [i];
  Ok (mkCent (map g_pos gs) (filled slots (-1)%Z [Z.of_nat i]) (filled slots 0%Q [1%Q]) 1).

(** col[:] = vals for a column of [n] values: numpy repeats a single one *)
Definition assign {A} (n : nat) (vals : list A) : res (list A) :=
  if Nat.eqb (List.length vals) n then Ok vals
  else match vals with [x] => Ok (repeat x n) | _ => Err ValueError end.
(** the columns of the cluster, and centering_cand of its neighbours *)
Record crow := mkCrow { r_pos : Q * Q; r_mag : Q; r_ids : list Z; r_cpos : list (Q * Q); r_p : list Q; r_n : nat; r_cand : list bool }.
Definition wrap (n : nat) (i : Z) : Z := if (i <? 0)%Z then (i + Z.of_nat n)%Z else i.
(** run_percolation.py:291-324; with [zscan] run_zscan.py:258-285, where no candidates are marked and the position goes to columns of its
    own *)
Definition record_centres (zscan : bool) (slots : nat) (gals : list gal) (c : cent) (old : crow) : res crow :=
  do pos <- py_index (ce_pos c) 0;
  do first <- py_index (ce_index c) 0;
  do upd <- (if (0 <=? first)%Z then
               do g <- py_index gals first;
               do ids <- mapM (fun i => do g <- py_index gals i; Ok (g_id g)) (ce_index c);
               do ids <- assign slots ids;
               Ok (g_mag g, ids, if zscan then r_cand old else fold_left (fun l i => set_nth l (Z.to_nat (wrap (List.length gals) i)) true) (ce_index c) (r_cand old))
             else Ok (r_mag old, r_ids old, r_cand old));
  let '(mag, ids, cand) := upd in
  do cpos <- assign slots (ce_pos c);
  do ps <- assign slots (ce_p c);
  Ok (mkCrow pos mag ids cpos ps (ce_ngood c) cand).
