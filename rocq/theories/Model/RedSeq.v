(** Red-sequence tables: redsequence.py:60-562.  Exact rational arithmetic. *)
From Coq Require Import QArith Qround Qabs.
From Verif.Base Require Import Py.
From Verif.Model Require Import Bkg Richness.
Local Open Scope nat_scope.

(** 151-158, 371 (redshifts); 173-178, 373 (magnitudes): n regular values and the overflow value *)
Definition bins (z0 zb : Q) (n : nat) : list Q := map (fun i => (zb * inject_Z (Z.of_nat i) + z0)%Q) (seq 0 n) ++ [1000%Q].
(** 151 *)
Definition n_bins (z0 z1 zb : Q) : nat := Z.to_nat (np_round ((z1 - z0) / zb)).
(** 161, 181: int(1./zbinsize) *)
Definition binscale (zb : Q) : Z := Qfloor (1 / zb).
(** 372, 374, 376 *)
Definition integers (scale : Z) (t : list Q) : list Z := map (fun z => np_round (z * inject_Z scale)) t.
Definition ssZ (l : list Z) (x : Z) : nat := prefix_len (fun y => (y <? x)%Z) l.
(** 401-465: zindex, refmagindex, lumrefmagindex for one value *)
Definition lookup (scale : Z) (t : list Q) (z : Q) : nat := ssZ (integers scale t) (np_round (z * inject_Z scale)).
Definition zindex (z0 z1 zb : Q) (z : Q) : nat := lookup (binscale zb) (bins z0 zb (n_bins z0 z1 zb)) z.

(** 222-257 for one redshift: matrices as functions of row and column *)
Definition mat := nat -> nat -> Q.
Definition mset (m : mat) (j k : nat) (v : Q) : mat := fun a b => if Nat.eqb a j && Nat.eqb b k then v else m a b.
Definition mzero : mat := fun _ _ => 0%Q.
(** 235-239; np.clip(x, minsig, None) *)
Definition diag_step (minsig : Q) (raw : mat) (sc : mat * mat) (j : nat) : mat * mat :=
  let '(sigma, cov) := sc in
  let sigma := mset sigma j j (Qmax2 (raw j j) minsig) in
  (sigma, mset cov j j (sigma j j * sigma j j)%Q).
(** 243-257, one pair *)
Definition off_step (raw : mat) (j : nat) (sc : mat * mat) (k : nat) : mat * mat :=
  let '(sigma, cov) := sc in
  let sigma := mset sigma j k (raw j k) in
  let sigma := if Qlt_bool (99#100) (sigma j k) then mset sigma j k (99#100) else sigma in
  let sigma := if Qlt_bool (sigma j k) (-99#100) then mset sigma j k (-99#100) else sigma in
  let sigma := mset sigma k j (sigma j k) in
  let cov := mset cov j k (sigma k j * sigma j j * sigma k k)%Q in
  (sigma, mset cov k j (cov j k)).
Definition covmat (minsig : Q) (ncol : nat) (raw : mat) : mat * mat :=
  let sc := fold_left (diag_step minsig raw) (seq 0 ncol) (mzero, mzero) in
  fold_left (fun sc j => fold_left (off_step raw j) (seq (j + 1) (ncol - (j + 1))) sc) (seq 0 ncol) sc.

(** 274-296: the width correction factor; [spl] is the spline evaluated at every redshift, [first] the first calibrated value *)
Definition corr_r (first : Q) (spl : list Q) : list Q :=
  map (fun r => if Qlt_bool r (1#2) then (1#2)%Q else r) (if Qle_bool first 0%Q then map (fun _ => 1%Q) spl else spl).

(** 194-199: the bins outside the calibrated redshifts *)
Definition loz (zmin : Q) (zs : list Q) : list nat := np_where (fun z => Qlt_bool z zmin) zs.
Definition hiz (zmax : Q) (zs : list Q) : list nat := np_where (fun z => Qlt_bool zmax z) zs.
Definition not_extrap (zmin zmax : Q) (zs : list Q) : list nat := np_where (fun z => negb (Qlt_bool z zmin || Qlt_bool zmax z)) zs.
Definition set_all {A} (l : list A) (idx : list nat) (f : nat -> A) : list A := fold_left (fun acc i => set_nth acc i (f i)) idx l.
(** 300-312: a column pinned to its first and last calibrated values *)
Definition pin (zmin zmax : Q) (zs col : list Q) : res (list Q) :=
  do lo <- py_index (map Z.of_nat (not_extrap zmin zmax zs)) 0;
  do hi <- py_index (map Z.of_nat (not_extrap zmin zmax zs)) (-1);
  do v0 <- py_index col lo;
  let col := set_all col (loz zmin zs) (fun _ => v0) in
  do v1 <- py_index col hi;
  Ok (set_all col (hiz zmax zs) (fun _ => v1)).
(** 316-328: one color column; [rg] is the template color at a redshift, or None when the template lacks the color
    (ValueError, caught) *)
Definition extend_color (zmin zmax : Q) (rg : option (Q -> Q)) (zs c : list Q) : res (list Q) :=
  match rg with
  | None => Ok c
  | Some g =>
      do lo <- py_index (map Z.of_nat (not_extrap zmin zmax zs)) 0;
      do hi <- py_index (map Z.of_nat (not_extrap zmin zmax zs)) (-1);
      do zlo <- py_index zs lo; do clo <- py_index c lo;
      let c := set_all c (loz zmin zs) (fun i => (g (nth i zs 0) - (g zlo - clo))%Q) in
      do zhi <- py_index zs hi; do chi <- py_index c hi;
      Ok (set_all c (hiz zmax zs) (fun i => (g (nth i zs 0) - (g zhi - chi))%Q))
  end.
