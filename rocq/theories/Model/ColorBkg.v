(** Model of the colour backgrounds: redmapper/color_background.py:315-504 (ColorBackgroundGenerator.run) and 26-168 (reading the
    tables).  Rational arithmetic, so that a range of bins is a whole number of them; single precision is left out.  Diagonal tables
    are those of one colour, off-diagonal ones of two. *)
From Coq Require Import QArith Qround.
From Verif.Base Require Import Py.
From Verif.Model Require Import Util BkgTable RedCal.
From Coq Require Import List. Import ListNotations.
Local Open Scope Q_scope.

(** 338, 350 *)
Definition refmagbinsize : Q := 5 # 100.
Definition colbinsize : Q := 2 # 100.
(** 347-363: the range of a colour, from pairs of colour and reference magnitude: all bins from the first to the last with more than
    [minrange] galaxies half a magnitude brighter than the limit *)
Definition col_range (minrange : nat) (limmag : Q) (cm : list (Q * Q)) : res (Q * Q) :=
  let use := filter (fun c => Qlt_bool (- (2)) (fst c) && Qlt_bool (fst c) 5 && Qlt_bool (snd c) (limmag - (1 # 2))) cm in
  let h := histogram (- (2)) 5 colbinsize (map fst use) in
  let bin k := inject_Z (Z.of_nat k) * colbinsize + - (2) in
  match np_where (fun n => Nat.ltb minrange n) h with
  | [] => Err ValueError                         (* np.min of an empty array *)
  | k :: t => Ok (bin k, bin (last t k) + colbinsize)
  end.
(** 376-398: rows by magnitude, divided by the bin sizes but not by an area *)
Definition diag_table (lo hi limmag : Q) (cs ms : list Q) : res (list (list Q)) :=
  table lo hi colbinsize 12 limmag refmagbinsize (repeat 1 (Z.to_nat (nbins 12 limmag refmagbinsize)))
    (fun m => Qle_bool 12 m && Qlt_bool m limmag) (fun c => c) cs ms.
Definition diag_n (t : list (list Q)) : list Q := map (fun row => Qsum row * colbinsize) t.
(** 431-457: [cms]: two colours and the magnitude of each galaxy; the value of cell (refmag, colour 2, colour 1) *)
Record gal3 := mkG3 { g3_c1 : Q; g3_c2 : Q; g3_m : Q }.
Definition in3 (lo1 hi1 lo2 hi2 limmag : Q) (g : gal3) : bool :=
  Qle_bool lo1 (g3_c1 g) && Qlt_bool (g3_c1 g) hi1 && Qle_bool lo2 (g3_c2 g) && Qlt_bool (g3_c2 g) hi2 && Qle_bool 12 (g3_m g) && Qlt_bool (g3_m g) limmag.
Definition off_table (lo1 hi1 lo2 hi2 limmag : Q) (gs : list gal3) : res (list (list (list Q))) :=
  let n1 := nbins lo1 hi1 colbinsize in let n2 := nbins lo2 hi2 colbinsize in let nm := nbins 12 limmag refmagbinsize in
  let samples := map (fun g => mkSa [(g3_c1 g - lo1) * inject_Z n1 / (hi1 - lo1); (g3_c2 g - lo2) * inject_Z n2 / (hi2 - lo2); (g3_m g - 12) * inject_Z nm / (limmag - 12)] 1)
                     (filter (in3 lo1 hi1 lo2 hi2 limmag) gs) in
  do field <- cic true false [n1; n2; nm] samples;
  Ok (map (fun m => map (fun k => map (fun j => nth (j + Z.to_nat n1 * (k + Z.to_nat n2 * m)) field 0 / (refmagbinsize * colbinsize * colbinsize))
            (seq 0 (Z.to_nat n1))) (seq 0 (Z.to_nat n2))) (seq 0 (Z.to_nat nm))).
Definition off_n (t : list (list (list Q))) : list Q := map (fun plane => Qsum (map (fun row => Qsum row * colbinsize) plane) * colbinsize) t.

(** ** the file, by the pairs of colours in it: 327-329, 374-375, 499-504.  [crash]: the run ends after so many writes. *)
Definition pairs (ncol : nat) : list (nat * nat) := flat_map (fun i => map (fun j => (i, j)) (seq i (ncol - i))) (seq 0 ncol).
Definition write (f : option (list (nat * nat))) (ij : nat * nat) : option (list (nat * nat)) :=
  if Nat.eqb (fst ij) 0 && Nat.eqb (snd ij) 0 then Some [ij] else match f with None => Some [ij] | Some l => Some (l ++ [ij]) end.
Definition run (ncol : nat) (clobber : bool) (crash : option nat) (f : option (list (nat * nat))) : option (list (nat * nat)) :=
  match f, clobber with
  | Some _, false => f
  | _, _ => fold_left write (match crash with None => pairs ncol | Some k => firstn k (pairs ncol) end) f
  end.

(** ** reading *)
(** 38-39: the bins of the tables that are looked up *)
Definition fine : Q := 1 # 100.
Definition clip0 (v : Q) : Q := Qmax2 v 0.
Definition interps (v x xout : list Q) : res (list Q) := all_ok (fun xo => do y <- interpol v x xo; Ok (clip0 y)) xout.
Definition column (t : list (list Q)) (i : nat) : list Q := map (fun row => nth i row 0) t.
(** 80-95: a diagonal table: the values on the fine bins and the normalisation; [t]: stored rows by magnitude.  The table after the
    first step has rows by fine magnitude and columns by stored colour. *)
Definition read_diag (mags cols : list Q) (t : list (list Q)) (fmags fcols : list Q) : res (list (list Q) * list Q) :=
  do bycol <- all_ok (fun i => interps (column t i) mags fmags) (seq 0 (List.length cols));
  let bc := map (fun k => map (fun c => nth k c 0) bycol) (seq 0 (List.length fmags)) in
  do bc_new <- all_ok (fun row => interps row cols fcols) bc;
  Ok (bc_new, map (fun row => Qsum row * (fine / colbinsize)) bc).
(** 145-146: the normalisation of an off-diagonal table, from its values on the fine bins *)
Definition off_norm (planes : list (list (list Q))) : list Q :=
  map (fun plane => Qsum (map (fun i => Qsum (column plane i) * fine) (seq 0 (List.length (nth 0 plane [])))) * fine) planes.
(** 238, 293: the density that is looked up *)
Definition density (v n : Q) : Q := v / n.
