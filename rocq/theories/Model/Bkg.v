(** Background lookups: background.py:130-173, 234-266; color_background.py:170-293.
    Each function is vectorised elementwise in the code; here one query point.  Bin edges and densities are
    rationals. *)
From Coq Require Import Qround.
From Verif.Base Require Import Py.

(** a looked-up value: finite or np.inf *)
Inductive lval := Inf | Val (q : Q).

(** np.round: nearest integer, halves to even *)
Definition np_round (q : Q) : Z :=
  let f := Qfloor q in
  let r := (q - inject_Z f)%Q in
  if Qlt_bool r (1#2) then f else if Qlt_bool (1#2) r then (f + 1)%Z
  else if Z.even f then f else (f + 1)%Z.

Record bkg := mkBkg {
  b_z : list Q; b_chi : list Q; b_mag : list Q; b_chisize : Q; b_magsize : Q;
  b_sig : list (list (list Q)) }.       (* [refmag][chisq][z] *)

(** background.py:145-173 [Background.sigma_g_lookup] *)
Definition sigma_g_lookup (b : bkg) (allow0 : bool) (z chisq refmag : Q) : res lval :=
  do zmin <- py_index (b_z b) 0;
  let ci := (Z.of_nat (ss_left (b_chi b) chisq) - 1)%Z in
  let mi := (Z.of_nat (ss_left (b_mag b) refmag) - 1)%Z in
  do z1 <- py_index (b_z b) 1;
  let zi := clipZ 0 (Z.of_nat (List.length (b_z b)) - 1) (np_round ((z - zmin) / (z1 - zmin))%Q) in
  do c0 <- py_index (b_chi b) 0;
  do cn <- py_index (b_chi b) (-1);
  let badchi := Qlt_bool chisq c0 || Qlt_bool (cn + b_chisize b)%Q chisq in
  do m0 <- py_index (b_mag b) 0;
  do mn <- py_index (b_mag b) (-1);
  let badmag := Qle_bool refmag m0 || Qlt_bool (mn + b_magsize b)%Q refmag in
  let ci := if badchi then 0%Z else ci in
  let mi := if badmag then 0%Z else mi in
  do pl <- py_index (b_sig b) mi;
  do row <- py_index pl ci;
  do v <- py_index row zi;
  if badchi || badmag then Ok Inf
  else if negb allow0 && Qeq_bool v 0 then Ok Inf
  else Ok (Val v).

Record zbkg := mkZB { zb_z : list Q; zb_mag : list Q; zb_sig : list (list Q) }.   (* [refmag][zred] *)

(** background.py:250-266 [ZredBackground.sigma_g_lookup] *)
Definition zred_lookup (b : zbkg) (zred refmag : Q) : res lval :=
  let zi := (Z.of_nat (ss_left (zb_z b) zred) - 1)%Z in
  let mi := (Z.of_nat (ss_left (zb_mag b) refmag) - 1)%Z in
  let badz := ((zi <? 0) || (Z.of_nat (List.length (zb_z b)) <=? zi))%Z in
  let zi := if badz then 0%Z else zi in
  let badm := ((mi <? 0) || (Z.of_nat (List.length (zb_mag b)) <=? mi))%Z in
  let mi := if badm then 0%Z else mi in
  do row <- py_index (zb_sig b) mi;
  do v <- py_index row zi;
  Ok (if badz || badm then Inf else Val v).

Record cbkg1 := mkC1 { c1_col : list Q; c1_mag : list Q; c1_size : Q; c1_msize : Q;
  c1_sig : list (list Q); c1_bc : list (list Q); c1_n : list Q }.

(** color_background.py:188-204 [sigma_g_diagonal], the background of the colour being given *)
Definition sigma_g_diagonal (b : cbkg1) (col refmag : Q) : res lval :=
  let ci := Z.of_nat (ss_left (c1_col b) (col - c1_size b)%Q) in
  let mi := Z.of_nat (ss_left (c1_mag b) (refmag - c1_msize b)%Q) in
  let badc := ((ci <? 0) || (Z.of_nat (List.length (c1_col b)) <=? ci))%Z in
  let ci := if badc then 0%Z else ci in
  let badm := ((mi <? 0) || (Z.of_nat (List.length (c1_mag b)) <=? mi))%Z in
  let mi := if badm then 0%Z else mi in
  do row <- py_index (c1_sig b) mi;
  do v <- py_index row ci;
  Ok (if badc || badm then Inf else if Qeq_bool v 0 then Inf else Val v).

(** color_background.py:277-293 [lookup_offdiag].  A background is stored under the pair of colours of its
    FITS extension; [bkgs] is the dictionary. *)
Record cbkg2 := mkC2 { c2_col1 : list Q; c2_col2 : list Q; c2_mag : list Q;
  c2_size1 : Q; c2_size2 : Q; c2_msize : Q;
  c2_bc : list (list (list Q)); c2_n : list Q }.       (* bc: [refmag][col2][col1] *)
Definition off_index (bins : list Q) (size x : Q) : Z :=
  clipZ 0 (Z.of_nat (List.length bins) - 1) (Z.of_nat (ss_left bins (x - size)%Q)).
Definition off_value (b : cbkg2) (colors1 colors2 refmag : Q) : res Q :=
  let mi := off_index (c2_mag b) (c2_msize b) refmag in
  let i1 := off_index (c2_col1 b) (c2_size1 b) colors1 in
  let i2 := off_index (c2_col2 b) (c2_size2 b) colors2 in
  do pl <- py_index (c2_bc b) mi;
  do row <- py_index pl i2;
  do v <- py_index row i1;
  do n <- py_index (c2_n b) mi;
  Ok (v / n)%Q.
Definition lookup_offdiag (bkgs : Z -> option cbkg2) (i1 i2 : Z) (colors1 colors2 refmag : Q) (doRaise : bool) : res Q :=
  let key := (i1 * 100 + i2)%Z in
  let key := match bkgs key with Some _ => key | None => (i2 * 100 + i1)%Z end in
  match bkgs key with
  | Some b => off_value b colors1 colors2 refmag
  | None => if doRaise then Err KeyError else Ok 0%Q
  end.
(** the dictionary built by the constructor (color_background.py:44-168) from the extensions i_j *)
Definition build_bkgs (exts : list ((Z * Z) * cbkg2)) : Z -> option cbkg2 :=
  fold_left (fun f e k => if (k =? fst (fst e) * 100 + snd (fst e))%Z then Some (snd e) else f k) exts (fun _ => None).
