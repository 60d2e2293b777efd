(** The files of the diagnostic plots and the plot of richnesses: plotting.py:24-44, 254-276 (SpecPlot), 376-394, 434-436, 505-511, 543-572 (NzPlot), 586-665
    (NLambdaPlot), 677-759 (PositionPlot); configuration.py:866-880 with a list of paths.  The drawing is not modelled; paths are joined by a slash (an absolute plotpath, which would replace the directory, is not modelled); matplotlib's hist is that of numpy: bins are open above
    but for the last. *)
From Coq Require Import QArith Qround Ascii String.
From Verif.Base Require Import Py.
From Verif.Model Require Import Names RunFlags.
From Coq Require Import List. Import ListNotations.
Local Open Scope string_scope.
Local Open Scope list_scope.

Inductive pkind := PSpec | PNz | PLam | PPos.
(** the attributes of a plot object: the name (fixed for SpecPlot, 275) and _withversion, None before it is set *)
Record pobj := mkPobj { b_name : string; b_version : option bool }.
(** 44, 393-394, 593, 683 *)
Definition new_plot (k : pkind) : pobj :=
  match k with PSpec => mkPobj "zspec" (Some false) | PNz => mkPobj "nz" (Some false) | PLam => mkPobj "nlambda" None | PPos => mkPobj "positions" None end.
(** where plots go: the place of the run (C189) and config.plotpath *)
Definition plot_file (p : place) (plotpath : str) (base : str) (version : bool) (name : string) : str :=
  o_path p ++ s_ "/" ++ plotpath ++ s_ "/" ++ (if version then base ++ s_ "_redmapper_v" ++ o_version p else base) ++ s_ "_" ++ s_ name ++ s_ ".png".
(** the property filename; [base]: config.d.outbase now *)
Definition plot_filename (p : place) (plotpath base : str) (o : pobj) : res str :=
  match b_version o with Some v => Ok (plot_file p plotpath base v (b_name o)) | None => Err AttributeError end.

(** what a user may ask of a plot: a plot of a catalogue, or of values under a name of their own (plot_nz, plot_nlambda, plot_positions); for SpecPlot,
    plot_values has no name; [ret]: figure_return, for SpecPlot alone *)
Inductive ask := Cat (version ret : bool) | Vals (name : string) (version ret : bool).
(** the object afterwards, and whether a file was saved (to the name of the object afterwards) *)
Definition plot (k : pkind) (o : pobj) (a : ask) : pobj * bool :=
  match k, a with
  | PSpec, Cat v r | PSpec, Vals _ v r => if r then (o, false) else (mkPobj (b_name o) (Some v), true)
  | PNz, Cat v _ => (mkPobj "nz" (Some v), true)                                          (* 436 *)
  | PLam, Cat v _ | PPos, Cat v _ => (mkPobj (b_name o) (Some v), true)                   (* 609, 697 *)
  | _, Vals n v _ => (mkPobj n (Some v), true)
  end.
Definition plots (k : pkind) (o : pobj) (l : list ask) : pobj := fold_left (fun o a => fst (plot k o a)) l o.
(** 548-552: the name of a redMaGiC plot, from the texts of the luminosity and of the density *)
Definition redmagic_name (extra : option string) (name eta n0 : string) : string :=
  match extra with
  | None => "redmagic_" ++ name ++ "_" ++ eta ++ "-" ++ n0 ++ "_nz"
  | Some e => "redmagic_" ++ e ++ "_" ++ name ++ "_" ++ eta ++ "-" ++ n0 ++ "_nz"
  end%string.

(** ** The plots of a consolidation: pipeline/redmapperconsolidatetask.py:218-222, 267-288 *)
Fixpoint prefixb (s l : str) : bool := match s, l with [], _ => true | a :: s', b :: l' => if ascii_dec a b then prefixb s' l' else false | _, [] => false end.
(** text.split(sep)[0] *)
Fixpoint before (sep l : str) : str := if prefixb sep l then [] else match l with [] => [] | x :: t => x :: before sep t end.
(** 218-222: the base of the plots of a catalogue, from the base name of its file *)
Definition plot_base (outbase version extra : str) : str :=
  before (s_ "_catalog") (outbase ++ s_ "_redmapper_v" ++ version ++ s_ "_" ++ extra ++ s_ "_catalog.fit").
(** 267-288: the files, and config.d.outbase afterwards; each object is new, and asked for a catalogue without a version *)
Definition base_plots (p : place) (plotpath base : str) : list str :=
  flat_map (fun k => let '(o, saved) := plot k (new_plot k) (Cat false false) in
    if saved then match plot_filename p plotpath base o with Ok f => [f] | Err _ => [] end else []) [PSpec; PNz; PLam; PPos].
Definition consolidation_plots (p : place) (plotpath outbase : str) (bases : list str) : list str * str :=
  (flat_map (base_plots p plotpath) bases, last bases outbase).

(** ** 638: np.arange(0, 200, binsize) *)
Definition n_edges (bs : Q) : nat := Z.to_nat (Qceiling (200 / bs)).
Definition edge (bs : Q) (i : nat) : Q := inject_Z (Z.of_nat i) * bs.
Definition in_lambda_bin (bs : Q) (j : nat) (x : Q) : bool :=
  Nat.ltb (S j) (n_edges bs) && Qle_bool (edge bs j) x && (Qlt_bool x (edge bs (S j)) || (Nat.eqb (S (S j)) (n_edges bs) && Qeq_bool x (edge bs (S j)))).
Definition lambda_counts (bs : Q) (lam : list Q) : list nat := map (fun j => List.length (filter (in_lambda_bin bs j) lam)) (seq 0 (n_edges bs - 1)).
