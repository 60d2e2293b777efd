(** Numerical helpers: utilities.py:555-581 (interpol), 587-827 (cic), 833-877 (make_nodes).  Exact rational arithmetic. *)
From Coq Require Import QArith Qround Qabs.
From Verif.Base Require Import Py.
From Verif.Model Require Import Richness.
Local Open Scope nat_scope.

(** 574-581: interpol(v, x, xout) for one xout.  Python indexing (a negative index counts from the end); with fewer than
    two nodes the division is by zero, which numpy turns into nan and which is outside the model. *)
Definition interpol (v x : list Q) (xout : Q) : res Q :=
  let m := Z.of_nat (List.length v) in
  let s := clipZ 0 (m - 2) (Z.of_nat (ss_left x xout) - 1) in
  do v1 <- py_index v (s + 1); do v0 <- py_index v s; do x0 <- py_index x s; do x1 <- py_index x (s + 1);
  Ok ((xout - x0) * (v1 - v0) / (x1 - x0) + v0)%Q.

(** np.arange(a, b, s) for s > 0: ceil((b-a)/s) values (exact; numpy's rounding of the length is not modelled) *)
Definition arange (a b s : Q) : list Q :=
  map (fun i => (a + inject_Z (Z.of_nat i) * s)%Q) (seq 0 (Z.to_nat (Qceiling ((b - a) / s)%Q))).
Definition set_last {A} (l : list A) (y : A) : list A := set_nth l (List.length l - 1) y.
(** nodes.max() *)
Definition list_max (l : list Q) : res Q := match l with [] => Err ValueError | x :: t => Ok (fold_left Qmax2 t x) end.
(** 858-861: the upper end of the regular nodes *)
Definition node_end (z1 : Q) (maxnode : option Q) : Q :=
  match maxnode with None => z1 | Some m => if Qlt_bool m 0%Q then z1 else clipQ 0%Q z1 m end.
(** 833-877.  [~np.allclose(...)] is -1 or -2, so the elif is always taken. *)
Definition make_nodes (z0 z1 nodesize : Q) (maxnode : option Q) : res (list Q) :=
  let mx := node_end z1 maxnode in
  let nodes := arange z0 mx nodesize in
  do top <- list_max nodes;
  let nodes' := if Qlt_bool (nodesize * (1#2) + (1#100))%Q (mx - top)%Q then nodes ++ [mx] else set_last nodes mx in
  Ok (if Qlt_bool mx z1 then nodes' ++ [z1] else nodes').

(** posx.astype(np.int32): truncation towards zero (32-bit overflow not modelled) *)
Definition Qtrunc (p : Q) : Z := Z.quot (Qnum p) (Zpos (Qden p)).
(** 646-678 (683-715, 725-757): the nearest grid point and the other cell along one axis, with their weights *)
Definition axis (isolated : bool) (n : Z) (pos : Q) : list (Z * Q) :=
  let k1 := Qtrunc pos in
  let dng := (inject_Z k1 + (1#2) - pos)%Q in
  let w1 := (1 - Qabs dng)%Q in
  let k2 := if Qlt_bool dng 0%Q then (k1 - 1 + 2)%Z else (k1 - 1)%Z in
  let w2 := Qabs dng in
  let '(k2, w2) := if (k2 =? -1)%Z then (n - 1, if isolated then 0%Q else w2)%Z else (k2, w2) in
  let '(k2, w2) := if (k2 =? n)%Z then (0%Z, if isolated then 0%Q else w2) else (k2, w2) in
  [(k1, w1); (k2, w2)].
(** 771-814: the 2^dim cells of one sample, in the order of the code (x varies fastest); the index
    kx + ky nx + kz nx ny is written kx + nx (ky + ny kz).  For dim < 3 the missing axes have index 0 and weight 1. *)
Fixpoint corners (isolated : bool) (ns : list Z) (ps : list Q) : list (Z * Q) :=
  match ns, ps with
  | n :: ns', p :: ps' =>
      flat_map (fun r => map (fun kw => ((fst kw + n * fst r)%Z, (snd kw * snd r)%Q)) (axis isolated n p)) (corners isolated ns' ps')
  | _, _ => [(0%Z, 1%Q)]
  end.
(** np.add.at(field, index, amount): one element after the other; IndexError outside the array, negative indices wrap *)
Definition add_at1 (f : list Q) (ia : Z * Q) : res (list Q) :=
  let n := Z.of_nat (List.length f) in
  let j := if (fst ia <? 0)%Z then (fst ia + n)%Z else fst ia in
  if ((j <? 0) || (n <=? j))%Z then Err IndexError
  else Ok (set_nth f (Z.to_nat j) (nth (Z.to_nat j) f 0%Q + snd ia)%Q).
Fixpoint add_at (f : list Q) (l : list (Z * Q)) : res (list Q) :=
  match l with [] => Ok f | x :: t => do f' <- add_at1 f x; add_at f' t end.
(** a sample: its position along each axis and its value *)
Record sample := mkSa { sa_pos : list Q; sa_val : Q }.
Definition grid_size (ns : list Z) : nat := Z.to_nat (fold_right Z.mul 1%Z ns).
(** the contributions in the order of the code: corner by corner, and for each corner sample by sample *)
Definition contribs (isolated : bool) (ns : list Z) (amount : sample -> Q) (ss : list sample) : list (Z * Q) :=
  flat_map (fun c => map (fun s => let kw := nth c (corners isolated ns (sa_pos s)) (0%Z, 0%Q) in (fst kw, snd kw * amount s)%Q) ss)
    (seq 0 (2 ^ List.length ns)).
(** 587-827, before the reshape; [ns] has one entry per dimension *)
Definition cic (isolated average : bool) (ns : list Z) (ss : list sample) : res (list Q) :=
  do field <- add_at (repeat 0%Q (grid_size ns)) (contribs isolated ns sa_val ss);
  if average then
    do tot <- add_at (repeat 0%Q (grid_size ns)) (contribs isolated ns (fun _ => 1%Q) ss);
    Ok (map (fun ft => if Qeq_bool (snd ft) 0%Q then fst ft else fst ft / snd ft)%Q (combine field tot))
  else Ok field.
