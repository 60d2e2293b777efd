(** The row of parameters of the red sequence: made by calibration/redsequencecal.py:80-158, read by redsequence.py:185-296.
    Rational arithmetic in place of 'f4' (the columns are single precision).  Not modelled: the values written into the row
    later (_calc_pivotmags and so on), only that they are written into columns of this row. *)
From Coq Require Import QArith Ascii String.
From Verif.Base Require Import Py.
From Verif.Model Require Import Names Util Galfile.
From Coq Require Import List. Import ListNotations.
Local Open Scope nat_scope.
Local Open Scope list_scope.

(** the settings: zrange, the sizes of the nodes, calib_err_ratio_pivot, nmag and those of each color *)
Record settings := mkSet { s_z0 : Q; s_z1 : Q; s_pivot : Q; s_cov : Q; s_corr : Q; s_corrslope : Q; s_errpivot : Q; s_nmag : nat;
                           s_color : list Q; s_slope : list Q; s_max : list Q }.
(** 83-96, 136-139: the nodes *)
Record nodeset := mkNodes { n_pivot : list Q; n_cov : list Q; n_corr : list Q; n_corrslope : list Q; n_vol : list Q; n_colors : list (list Q * list Q) }.
Definition at_index {A} (l : list A) (j : nat) : res A := match nth_error l j with Some x => Ok x | None => Err IndexError end.
Definition color_nodes (c : settings) (j : nat) : res (list Q * list Q) :=
  do s <- at_index (s_color c) j; do m <- at_index (s_max c) j; do a <- make_nodes (s_z0 c) (s_z1 c) s (Some m);
  do t <- at_index (s_slope c) j; do b <- make_nodes (s_z0 c) (s_z1 c) t (Some m); Ok (a, b).
Definition all_nodes (c : settings) : res nodeset :=
  let nodes s := make_nodes (s_z0 c) (s_z1 c) s None in
  do p <- nodes (s_pivot c); do v <- nodes (s_cov c); do r <- nodes (s_corr c); do t <- nodes (s_corrslope c); do f <- nodes (1#100)%Q;
  do l <- mapM (color_nodes c) (seq 0 (s_nmag c - 1)); Ok (mkNodes p v r t f l).
(** 131-134 *)
Definition ztag (j : nat) : str := s_ "z" ++ fmt 2 (Z.of_nat j).
Definition ctag (j : nat) : str := s_ "c" ++ fmt 2 (Z.of_nat j).
Definition zstag (j : nat) : str := s_ "zs" ++ fmt 2 (Z.of_nat j).
Definition stag (j : nat) : str := s_ "slope" ++ fmt 2 (Z.of_nat j).
(** 99-122, 141-144: the columns, each with its shape *)
Definition fixed_columns (nmag : nat) (n : nodeset) : list (str * list nat) :=
  let ncol := nmag - 1 in
  let p := List.length (n_pivot n) in let v := List.length (n_cov n) in
  let r := List.length (n_corr n) in let t := List.length (n_corrslope n) in let f := List.length (n_vol n) in
  [(s_ "pivotmag_z", [p]); (s_ "pivotmag", [p]); (s_ "minrefmag", [p]); (s_ "maxrefmag", [p]); (s_ "medcol", [p; ncol]); (s_ "medcol_width", [p; ncol]);
   (s_ "medcol_err_ratio", [ncol]); (s_ "covmat_z", [v]); (s_ "sigma", [ncol; ncol; v]); (s_ "covmat_amp", [ncol; ncol; v]); (s_ "covmat_slope", [ncol; ncol; v]);
   (s_ "mag_err_ratio_int", [nmag]); (s_ "mag_err_ratio_slope", [nmag]); (s_ "mag_err_ratio_pivot", []); (s_ "corr_z", [r]); (s_ "corr", [r]);
   (s_ "corr_slope_z", [t]); (s_ "corr_slope", [t]); (s_ "corr_r", [t]); (s_ "corr2", [r]); (s_ "corr2_slope", [t]); (s_ "corr2_r", [t]);
   (s_ "volume_factor_z", [f]); (s_ "volume_factor", [f])].
Definition color_columns (j : nat) (ab : list Q * list Q) : list (str * list nat) :=
  [(ztag j, [List.length (fst ab)]); (ctag j, [List.length (fst ab)]); (zstag j, [List.length (snd ab)]); (stag j, [List.length (snd ab)])].
Definition numbered {A} (l : list A) : list (nat * A) := combine (seq 0 (List.length l)) l.
Definition columns (nmag : nat) (n : nodeset) : list (str * list nat) :=
  fixed_columns nmag n ++ flat_map (fun ja => color_columns (fst ja) (snd ja)) (numbered (n_colors n)).

(** ** the row: for each column its shape and its values, the last index running fastest *)
Definition prod (sh : list nat) : nat := fold_right Nat.mul 1 sh.
Definition row : Type := list (str * (list nat * list Q)).
Definition same (a b : str) : bool := if list_eq_dec ascii_dec a b then true else false.
Fixpoint get (r : row) (n : str) : option (list nat * list Q) := match r with [] => None | (m, x) :: t => if same n m then Some x else get t n end.
Fixpoint distinct (l : list str) : bool := match l with [] => true | a :: t => negb (existsb (same a) t) && distinct t end.
(** 147: np.zeros(1, dtype) *)
Definition zeros (cols : list (str * list nat)) : res row :=
  if distinct (map fst cols) then Ok (map (fun c => (fst c, (snd c, repeat 0%Q (prod (snd c))))) cols) else Err ValueError.
(** assigning a column: all of it (a value of another size is refused; numpy would repeat a single one) *)
Fixpoint put (r : row) (n : str) (v : list Q) : res row :=
  match r with
  | [] => Err AttributeError
  | (m, (sh, old)) :: t => if same n m then (if Nat.eqb (List.length v) (List.length old) then Ok ((m, (sh, v)) :: t) else Err ValueError)
                           else do t' <- put t n v; Ok ((m, (sh, old)) :: t')
  end.
Fixpoint fill (r : row) (l : list (str * list Q)) : res row := match l with [] => Ok r | (n, v) :: t => do r' <- put r n v; fill r' t end.
(** 149-158 *)
Definition starting_values (c : settings) (n : nodeset) : list (str * list Q) :=
  [(s_ "pivotmag_z", n_pivot n); (s_ "covmat_z", n_cov n); (s_ "corr_z", n_corr n); (s_ "corr_slope_z", n_corrslope n); (s_ "volume_factor_z", n_vol n);
   (s_ "mag_err_ratio_pivot", [s_errpivot c])] ++
  flat_map (fun ja => [(ztag (fst ja), fst (snd ja)); (zstag (fst ja), snd (snd ja))]) (numbered (n_colors n)).
Definition make_pars (c : settings) : res row := do n <- all_nodes c; do r <- zeros (columns (s_nmag c) n); fill r (starting_values c n).

(** ** reading: redsequence.py:185-292.  The names are compared as fitsio returns them, all in capitals; here all are small. *)
(** the columns of a spline, and the element for a column of matrices *)
Record spline := mkSpl { sp_z : str; sp_v : str; sp_jk : option (nat * nat) }.
Definition splines (ncol : nat) : list spline :=
  let P v := mkSpl (s_ "pivotmag_z") (s_ v) None in
  [P "pivotmag"; P "maxrefmag"; P "minrefmag"]%string ++
  flat_map (fun j => [mkSpl (ztag j) (ctag j) None; mkSpl (zstag j) (stag j) None]) (seq 0 ncol) ++
  map (fun j => mkSpl (s_ "covmat_z") (s_ "sigma") (Some (j, j))) (seq 0 ncol) ++
  flat_map (fun j => map (fun k => mkSpl (s_ "covmat_z") (s_ "sigma") (Some (j, k))) (seq (j + 1) (ncol - (j + 1)))) (seq 0 ncol) ++
  [mkSpl (s_ "volume_factor_z") (s_ "volume_factor") None; mkSpl (s_ "corr_z") (s_ "corr") None; mkSpl (s_ "corr_slope_z") (s_ "corr_slope") None;
   mkSpl (s_ "corr_z") (s_ "corr2") None; mkSpl (s_ "corr_slope_z") (s_ "corr2_slope") None; mkSpl (s_ "corr_slope_z") (s_ "corr_r") None;
   mkSpl (s_ "corr_slope_z") (s_ "corr2_r") None].
(** the two arguments given to CubicSpline *)
Definition read_spline (r : row) (s : spline) : res (list Q * list Q) :=
  match get r (sp_z s), get r (sp_v s) with
  | Some (_, xs), Some (sh, ys) =>
    match sp_jk s, sh with
    | None, [_] => Ok (xs, ys)
    | Some (j, k), [a; b; n] => if Nat.ltb j a && Nat.ltb k b then Ok (xs, firstn n (skipn ((j * b + k) * n) ys)) else Err IndexError
    | _, _ => Err IndexError
    end
  | _, _ => Err ValueError
  end.
