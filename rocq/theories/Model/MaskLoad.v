(** Loading of masks, depth maps and redshift corrections: mask.py:336-372 (HPMask), 407-426 (get_mask), galaxy.py:523-547 (FakeMaskConfig), 689-693,
    733-735 (mask of the maker of galaxies), depthmap.py:38-73, configuration.py:533-534, cluster_runner.py:163-180,
    zlambda.py:558-663 (ZlambdaCorrectionPar).
    Regions are those of Model/SubPix: a position is a nested pixel of the order of the map. *)
From Coq Require Import QArith Qround ZArith String.
From Verif.Base Require Import Py.
From Verif.Model Require Import SubPix.
From Coq Require Import List. Import ListNotations.
Local Open Scope Q_scope.

(** ** masks.  config.d.hpix: a list, or (FakeMaskConfig) a number *)
Inductive hval := HList (l : list nat) | HInt (z : Z).
Record mconf := mkConf { mc_mode : Z; mc_hpix : hval; mc_order : option nat; mc_border : bool }.
(** a map on disk: not there, not in healsparse format, or the order of the map and of its coverage and the values *)
Inductive mapfile := Absent | Foreign | Sparse (D c : nat) (m : nat -> option Q).
Inductive mask := Bare | HP (m : nat -> option Q).
(** the pixels near the region, and the numbering in rings: see Model/SubPix *)
Record lib := mkLib { l_r2n : nat -> nat -> nat; l_near : nat -> list nat }.
(** mask.py:353-368, depthmap.py:44-63 *)
Definition read_sparse (L : lib) (f : mapfile) (c : mconf) : res (nat -> option Q) :=
  match f with
  | Absent => Err OSError
  | Foreign => Err RuntimeError
  | Sparse D cov m =>
    match mc_hpix c with
    | HInt _ => Err TypeError                                        (* len() of a number *)
    | HList l => do pix <- region_pixels (l_r2n L) (mc_order c) l (mc_border c) cov (l_near L); Ok (read_map D cov pix m)
    end
  end.
(** mask.py:419-426; no result, that is None, for any other mode.  (The galaxies of the mask are left out.) *)
Definition get_mask (L : lib) (f : mapfile) (c : mconf) : res (option mask) :=
  if (mc_mode c =? 0)%Z then Ok (Some Bare)
  else if (mc_mode c =? 3)%Z then do m <- read_sparse L f c; Ok (Some (HP m))
  else Ok None.
(** galaxy.py:689-693 with 539-547 *)
Definition fake (mode : Z) : mconf := mkConf mode (HInt 0) None false.
Definition maker_mask (L : lib) (maskfile : option mapfile) (mode : Z) : res (option mask) :=
  match maskfile with None => Ok None | Some f => get_mask L f (fake mode) end.
(** galaxy.py:733-735, mask.py:47-70, 402-404; a galaxy: its position and its random number *)
Definition keep (m : mask) (g : nat * Q) : bool :=
  match m with Bare => true | HP v => match v (fst g) with Some fr => Qlt_bool (snd g) fr | None => false end end.
Definition masked (m : option mask) (gals : list (nat * Q)) : list (nat * Q) :=
  match m with None => gals | Some m => filter (keep m) gals end.
(** configuration.py:533-534 *)
Definition check_mask (maskfile : option mapfile) (mode : Z) : res unit :=
  match maskfile with Some _ => if (mode =? 0)%Z then Err ValueError else Ok tt | None => Ok tt end.

(** ** zlambda.py:558-663.  [spl nodes values z]: the cubic spline *)
Record head := mkHead { h_z0 : Q; h_z1 : Q; h_bin : Q; h_piv : Q }.
(** the parameters; the tables of each iteration *)
Record cpars := mkPars { p_niter : option nat; p_offz : list Q; p_off : nat -> list Q; p_slopez : list Q; p_slope : nat -> list Q; p_scat : nat -> list Q; p_unc : list Q }.
Inductive source := FromFile (there : bool) (h : head) (p : cpars) | FromPars (p : cpars) | Nothing.
Record ctab := mkTab { t_z0 : Q; t_z1 : Q; t_bin : Q; t_piv : Q; t_z : list Q; t_extra : list bool; t_off : list (list Q); t_slope : list (list Q); t_scat : list (list Q); t_unc : list Q }.
(** np.round to the nearest whole number, halves to the even one *)
Definition np_round (x : Q) : Z :=
  let f := Qfloor x in let d := x - inject_Z f in
  if Qlt_bool d (1 # 2) then f else if Qlt_bool (1 # 2) d then (f + 1)%Z else if Z.even f then f else (f + 1)%Z.
Definition last_of (l : list Q) : Q := last l 0.
Definition outside (nodes : list Q) (z : Q) : bool := orb (Qlt_bool z (nth 0 nodes 0)) (Qlt_bool (last_of nodes) z).
(** 621-663; zero bin sizes are left out *)
Definition make_tab (spl : list Q -> list Q -> Q -> Q) (z0 z1 bin piv : Q) (p : cpars) : ctab :=
  let n := Z.to_nat (np_round ((z1 - z0) / bin)) in
  let z := map (fun i => bin * inject_Z (Z.of_nat i) + z0) (seq 0 n) in
  let it := seq 0 (match p_niter p with Some k => k | None => 1 end) in
  mkTab z0 z1 bin piv z (map (outside (p_offz p)) z)
    (map (fun i => map (spl (p_offz p) (p_off p i)) z) it)
    (map (fun i => map (spl (p_slopez p) (p_slope p i)) z) it)
    (map (fun i => map (fun x => Qmax2 (spl (p_slopez p) (p_scat p i) x) (1 # 1000)) z) it)
    (map (spl (p_offz p) (p_unc p)) z).
Definition or_else {A} (a : option A) (b : A) : A := match a with Some x => x | None => b end.
Definition zcorr_init (spl : list Q -> list Q -> Q -> Q) (s : source) (zr : option (Q * Q)) (bin piv : option Q) : res ctab :=
  match s with
  | Nothing => Err RuntimeError
  | FromFile false _ _ => Err IOError
  | FromFile true h p => let '(z0, z1) := or_else zr (h_z0 h, h_z1 h) in Ok (make_tab spl z0 z1 (or_else bin (h_bin h)) (or_else piv (h_piv h)) p)
  | FromPars p => match zr, bin, piv with Some (z0, z1), Some b, Some v => Ok (make_tab spl z0 z1 b v p) | _, _, _ => Err ValueError end
  end.
(** ** cluster_runner.py:164-168 and 176-180: what cannot be read is left out *)
Definition optional {A} (r : res A) : option A := match r with Ok x => Some x | Err _ => None end.
Definition runner_corr (spl : list Q -> list Q -> Q -> Q) (s : source) (piv : Q) : option ctab := optional (zcorr_init spl s None None (Some piv)).
Definition runner_depth (L : lib) (f : mapfile) (c : mconf) : option (nat -> option Q) := optional (read_sparse L f c).
