(** The header of the parameter file of the red sequence: written by calibration/redsequencecal.py:903-931 (save_pars), read by
    redmapper/redsequence.py:62-155 (RedSequenceColorPar.__init__); and calibration/redsequencecal.py:64-78, 161-166 (the galaxies
    used), 175-180 (luptitudes), 430-454, 871-888.  Rational arithmetic. *)
From Coq Require Import QArith Qabs Ascii String.
From Verif.Base Require Import Py.
From Verif.Model Require Import Names Maskgals.
From Coq Require Import List. Import ListNotations.
Local Open Scope Q_scope.

(** ** strings *)
Definition comma : ascii := ","%char.
Fixpoint join (l : list str) : str := match l with [] => [] | a :: t => match t with [] => a | _ => (a ++ comma :: join t)%list end end.
Fixpoint splitc (s : str) : list str :=
  match s with
  | [] => [[]]
  | x :: t => if Ascii.eqb x comma then [] :: splitc t else match splitc t with [] => [[x]] | h :: r => (x :: h) :: r end
  end.
(** str.rstrip(): blanks and the like *)
Definition ws : str := map ascii_of_nat [32; 9; 10; 11; 12; 13]%nat.

(** ** a header: entries by their names; [KB n] is 'BVALUEn' *)
Inductive key := K (s : string) | KB (n : nat).
Inductive val := VQ (q : Q) | VZ (z : Z) | VS (s : str).
Definition key_eqb (a b : key) : bool := match a, b with K s, K t => String.eqb s t | KB n, KB m => Nat.eqb n m | _, _ => false end.
Definition header := list (key * val).
Fixpoint get (h : header) (k : key) : option val := match h with [] => None | (k', v) :: t => if key_eqb k k' then Some v else get t k end.
(** an entry of another kind counts as missing (a simplification) *)
Definition getQ (h : header) (k : key) : option Q := match get h k with Some (VQ q) => Some q | _ => None end.
Definition getZ (h : header) (k : key) : option Z := match get h k with Some (VZ q) => Some q | _ => None end.
Definition getS (h : header) (k : key) : option str := match get h k with Some (VS q) => Some q | _ => None end.
Definition need {A} (o : option A) : res A := match o with Some x => Ok x | None => Err ValueError end.

(** ** writing *)
Record cfg := mkCfg { f_nmag : nat; f_survey : str; f_mband : str; f_limmag : Q; f_z0 : Q; f_z1 : Q; f_alpha : Q; f_fine : Q; f_coarse : Q;
                      f_ref : Z; f_bands : list str; f_b : list Q; f_template : option (str * Q) (* name and largest redshift *) }.
(** 927-929 *)
Fixpoint bvals (j : nat) (b : list Q) : header := match b with [] => [] | x :: t => (KB (j + 1), VQ x) :: bvals (j + 1) t end.
(** 903-929 *)
Definition write_header (c : cfg) : header :=
  ([(K "NCOL", VZ (Z.of_nat (f_nmag c) - 1)); (K "MSTARSUR", VS (f_survey c)); (K "MSTARBAN", VS (f_mband c)); (K "LIMMAG", VQ (f_limmag c));
    (K "ZRANGE0", VQ (Qmax2 (f_z0 c - (1 # 10)) (1 # 100)));
    (K "ZRANGE1", VQ (match f_template c with Some (_, zmax) => Qmin2 (f_z1 c + (1 # 4)) zmax | None => f_z1 c + (1 # 4) end));
    (K "ALPHA", VQ (f_alpha c)); (K "ZBINFINE", VQ (f_fine c)); (K "ZBINCOAR", VQ (f_coarse c)); (K "LOWZMODE", VZ 0);
    (K "REF_IND", VZ (f_ref c)); (K "BANDS", VS (join (f_bands c)))]
   ++ match f_template c with Some (t, _) => [(K "TEMPLATE", VS t)] | None => [] end
   ++ if Qlt_bool 0 (nth 0 (f_b c) 0) then bvals 0 (f_b c) else [])%list.

(** ** reading *)
Record par := mkPar { r_limmag : Q; r_z0 : Q; r_z1 : Q; r_alpha : Q; r_survey : str; r_mband : str; r_ncol : Z; r_template : option (str * list str);
                      r_zbin : Q; r_lowz : Z; r_b : list Q; r_lup : bool; r_ref : Z }.
(** 97-100 *)
Definition parse_bands (s : str) : list str := if existsb (Ascii.eqb comma) s then splitc (rstrip ws s) else map (fun c => [c]) (rstrip ws s).
(** 131-136 *)
Definition read_b (h : header) (nmag : nat) : list Q :=
  match fold_right (fun i acc => match getQ h (KB (i + 1)), acc with Some x, Some l => Some (x :: l) | _, _ => None end) (Some []) (seq 0 nmag) with
  | Some l => l
  | None => repeat 0 nmag
  end.
(** 82-150.  [limmag], [zrange], [zbinsize]: given by the caller in place of those of the file *)
Definition read_header (limmag : option Q) (zrange : option (Q * Q)) (zbinsize : option Q) (fine : bool) (h : header) : res par :=
  do lim <- match limmag with Some q => Ok q | None => need (getQ h (K "LIMMAG")) end;
  do zr <- match zrange with Some q => Ok q | None => do a <- need (getQ h (K "ZRANGE0")); do b <- need (getQ h (K "ZRANGE1")); Ok (a, b) end;
  do alpha <- need (getQ h (K "ALPHA"));
  do sur <- need (getS h (K "MSTARSUR"));
  do mb <- need (getS h (K "MSTARBAN"));
  do ncol <- need (getZ h (K "NCOL"));
  do tpl <- match getS h (K "TEMPLATE") with
            | Some t => do b <- need (getS h (K "BANDS")); Ok (Some (t, parse_bands b))
            | None => Ok None
            end;
  do zb <- match zbinsize with Some q => Ok q | None => need (getQ h (K (if fine then "ZBINFINE" else "ZBINCOAR"))) end;
  let lowz := match getZ h (K "LOWZMODE") with Some z => z | None => 0%Z end in
  let b := read_b h (Z.to_nat (ncol + 1)) in
  do ref <- need (match getZ h (K "REF_IND") with Some z => Some z | None => getZ h (K "I_IND") end);
  Ok (mkPar lim (fst zr) (snd zr) alpha sur mb ncol tpl zb lowz b (forallb (Qlt_bool 0) b) ref).

(** redsequencecal.py:175-180: whether the calibration corrects for luptitudes *)
Definition cal_lup (b : list Q) : bool := negb (Qeq_bool (nth 0 b 0) 0).

(** ** redsequencecal.py:64-78, 161-166: the galaxies; [m_p], [m_pcol]: the probabilities *)
Record mgal := mkMG { m_z : Q; m_p : Q; m_pcol : Q; m_mag : Q }.
Definition prob (use_pcol : bool) (g : mgal) : Q := if use_pcol then m_pcol g else m_p g.
Definition sample (use_pcol : bool) (z0 z1 pcut : Q) (gals : list mgal) : res (list mgal) :=
  match filter (fun g => Qlt_bool z0 (m_z g) && Qlt_bool (m_z g) z1 && Qlt_bool pcut (prob use_pcol g)) gals with
  | [] => Err RuntimeError
  | l => Ok l
  end.
Definition colour_sample (use_pcol : bool) (col_pcut : Q) (gals : list mgal) : list mgal := filter (fun g => Qlt_bool col_pcut (prob use_pcol g)) gals.

(** ** 437-454: the ratio of the true to the stated errors; [width r]: the scatter of the pulls with the errors times r (445-449) *)
Definition ratios : list Q := map (fun i => (5 # 10) + inject_Z (Z.of_nat i) * (1 # 10)) (seq 0 95).
Fixpoint argminQ_from (l : list Q) (i best : nat) (v : Q) : nat :=
  match l with [] => best | x :: t => if Qlt_bool x v then argminQ_from t (S i) i x else argminQ_from t (S i) best v end.
Definition argminQ (l : list Q) : nat := match l with [] => 0 | x :: t => argminQ_from t 1 0 x end.
Definition err_ratio (fit : bool) (width : Q -> Q) : Q :=
  if fit then nth (argminQ (map (fun r => Qabs (width r - 1)) ratios)) ratios 0 else 1.

(** ** 883-888; [dl]: the luminosity distance from 0 *)
Definition volume_factor (dl : Q -> Q) (zref z : Q) : Q :=
  (dl (zref + (1 # 100)) / (1 + (zref + (1 # 100))) - dl zref / (1 + zref)) / (dl (z + (1 # 100)) / (1 + (z + (1 # 100))) - dl z / (1 + z)).
