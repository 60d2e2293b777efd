(** Writing a configuration to a yaml file and reading it back: configuration.py:119-148 (read_yaml), 933-957
    (output_yaml), and the configuration of the run written at the end of a calibration, calibration/calibrate.py:187-280
    (output_configuration; the names of files and directories it computes are arguments here, see Names).
    The text of the yaml file is not modelled: a file is the dictionary in it, or nothing (an empty file). *)
From Coq Require Import ZArith String QArith.
From Verif.Base Require Import Py.
From Verif.Model Require Import Config.
From Coq Require Import List. Import ListNotations.
Local Open Scope string_scope.
Local Open Scope nat_scope.

(** read_yaml, 119-148: the check of required tags at 138-141 goes through a dictionary that is still empty; an empty
    file is None, which cannot be iterated over *)
Definition read_yaml (file : option dict) : res dict :=
  match file with
  | None => Err TypeError
  | Some d => Ok d
  end.
(** 941-953: np.ndarray.tolist of something that is not an array; item() of a python value falls back to the value.
    A scalar option holding a numpy array of one element would be written as that element: scalars here are python
    values or numpy scalars. *)
Definition dump_one (s : store) (f : field) : res (string * value) :=
  match f_kind f with
  | KArray => match vals s (f_name f) with
              | VSeq l => Ok (f_name f, VSeq l)
              | _ => Err TypeError
              end
  | _ => Ok (f_name f, vals s (f_name f))
  end.
Fixpoint dump_all (s : store) (fs : list field) : res dict :=
  match fs with
  | [] => Ok []
  | f :: t => do x <- dump_one s f; do r <- dump_all s t; Ok (x :: r)
  end.
(** 933-957 *)
Definition output_yaml (s : store) : res dict := dump_all s options.
(** Configuration(filename), 409-550, for a file *)
Definition load_file (E : env) (file : option dict) (o : option value) (s : store) : store * res unit :=
  match read_yaml file with
  | Err e => (reset s, Err e)
  | Ok d => load E d o s
  end.

(** ** calibrate.py:187-280 *)
(** the absolute path of a path: os.path.abspath raises for None *)
Record paths := mkPaths {
  p_abs : value -> res value;
  p_outbase : value;                 (* 226-229 *)
  p_pars : value; p_bkg : value; p_bkg_run : value; p_zred_cal : value; p_zred_run : value; p_zlambda : value; p_wcen : value   (* 233-264 *)
}.
Definition to_abs (P : paths) (n : string) (s : store) : res store := do v <- p_abs P (vals s n); Ok (put s n v).
Fixpoint puts (l : list (string * value)) (s : store) : store := match l with [] => s | (n, v) :: t => puts t (put s n v) end.
(** 217-278: gives the configuration and the pair (new_bkgfile, new_zreds) *)
Definition output_configuration (P : paths) (s : store) : res (store * (bool * bool)) :=
  do s <- to_abs P "galfile" s;
  do s <- to_abs P "specfile" s;
  let s := puts [("outbase", p_outbase P); ("parfile", p_pars P); ("bkgfile", p_bkg P)] s in
  do ns <- num (vals s "nside");
  let whole := Qeq_bool ns 0 in
  let full := truthy (vals s "calib_make_full_bkg") in
  let s := if whole then put s "zredfile" (p_zred_cal P) else put s "zredfile" (p_zred_run P) in
  let s := if (negb whole && full)%bool then put s "bkgfile" (p_bkg_run P) else s in
  let s := puts [("zlambdafile", p_zlambda P); ("wcenfile", p_wcen P)] s in
  do s <- to_abs P "bkgfile_color" s;
  let s := put s "catfile" VNone in
  do s <- to_abs P "maskgalfile" s;
  do s <- to_abs P "redgalfile" s;
  do s <- to_abs P "redgalmodelfile" s;
  let s := puts [("seedfile", VNone); ("zmemfile", VNone); ("nside", VAtom (ANum 0)); ("hpix", VSeq []); ("border", VAtom (ANum 0)); ("area", VNone)] s in
  Ok (s, ((negb whole && full)%bool, negb whole)).

(** calibrate.py:161-183: the background made after the calibration, if one is: its file, the region config.d names then and the area; [galarea]: galfile_area.  The background itself is in BkgGen. *)
Record bkg_made := mkBkgMade { k_file : value; k_nside : Z; k_hpix : list Z; k_area : value; k_deep : bool }.
Definition final_background (P : paths) (galarea : value) (s : store) : res (option bkg_made) :=
  do r <- output_configuration P s;
  let '(s', (new_bkg, _)) := r in
  Ok (if new_bkg then Some (mkBkgMade (vals s' "bkgfile") 0 [] galarea true) else None).
