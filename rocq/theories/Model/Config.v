(** Configurations: configuration.py:17-117 (ConfigField), 150-167 (DuplicatableConfig), 170-660, 785-829 (Configuration). *)
From Coq Require Import ZArith String QArith Qabs Qround.
From Verif.Base Require Import Py.
Local Open Scope string_scope.
Local Open Scope nat_scope.

(** Values found in a yaml file or a FITS header; a string is kept whole. Nested sequences and mappings are not modelled. *)
Inductive atom := ANone | ABool (b : bool) | ANum (q : Q) | AStr (s : string).
Inductive value := VNone | VAtom (a : atom) | VSeq (l : list atom).
Inductive kind := KScalar | KArray | KList.
Record field := mkField { f_name : string; f_kind : kind; f_default : value; f_required : bool; f_len : option Z }.

(** configuration.py:179-407, one line per option *)
Definition options : list field := [
  mkField "version" KScalar (VAtom (AStr "VERSION")) true None;
  mkField "galfile" KScalar (VNone) true None;
  mkField "zredfile" KScalar (VNone) false None;
  mkField "halofile" KScalar (VNone) false None;
  mkField "randfile" KScalar (VNone) false None;
  mkField "catfile" KScalar (VNone) false None;
  mkField "specfile" KScalar (VNone) false None;
  mkField "specfile_train" KScalar (VNone) false None;
  mkField "outbase" KScalar (VNone) true None;
  mkField "parfile" KScalar (VNone) false None;
  mkField "bkgfile" KScalar (VNone) false None;
  mkField "bkgfile_color" KScalar (VNone) false None;
  mkField "zlambdafile" KScalar (VNone) false None;
  mkField "maskfile" KScalar (VNone) false None;
  mkField "depthfile" KScalar (VNone) false None;
  mkField "wcenfile" KScalar (VNone) false None;
  mkField "redgalfile" KScalar (VNone) false None;
  mkField "redgalmodelfile" KScalar (VNone) false None;
  mkField "seedfile" KScalar (VNone) false None;
  mkField "zmemfile" KScalar (VNone) false None;
  mkField "redmagicfile" KScalar (VNone) false None;
  mkField "calib_nproc" KScalar (VAtom (ANum (1 # 1))) true None;
  mkField "calib_run_nproc" KScalar (VAtom (ANum (1 # 1))) true None;
  mkField "calib_run_min_nside" KScalar (VAtom (ANum (1 # 1))) true None;
  mkField "runcat_percolation_masking" KScalar (VAtom (ABool true)) false None;
  mkField "outpath" KScalar (VAtom (AStr "./")) true None;
  mkField "plotpath" KScalar (VAtom (AStr "")) true None;
  mkField "logpath" KScalar (VAtom (AStr "logs")) true None;
  mkField "border" KScalar (VAtom (ANum (0 # 1))) true None;
  mkField "hpix" KArray (VSeq []) true None;
  mkField "nside" KScalar (VAtom (ANum (0 # 1))) true None;
  mkField "galfile_pixelized" KScalar (VNone) true None;
  mkField "use_tempfiles_to_conserve_memory" KScalar (VAtom (ABool true)) true None;
  mkField "printlogging" KScalar (VAtom (ABool true)) true None;
  mkField "nmag" KScalar (VNone) true None;
  mkField "area" KScalar (VNone) true None;
  mkField "limmag_catalog" KScalar (VNone) true None;
  mkField "limmag_ref" KScalar (VNone) true None;
  mkField "refmag" KScalar (VNone) true None;
  mkField "ref_ind" KScalar (VNone) true None;
  mkField "zeropoint" KScalar (VNone) true None;
  mkField "survey_mode" KScalar (VNone) true None;
  mkField "b" KArray (VNone) false None;
  mkField "galfile_nside" KScalar (VNone) true None;
  mkField "bands" KScalar (VNone) true None;
  mkField "has_truth" KScalar (VAtom (ABool false)) false None;
  mkField "galfile_has_truth" KScalar (VAtom (ABool false)) false None;
  mkField "galfile_has_zspec" KScalar (VAtom (ABool false)) false None;
  mkField "area_finebin" KScalar (VAtom (ANum (1 # 1000))) true None;
  mkField "area_coarsebin" KScalar (VAtom (ANum (1 # 200))) true None;
  mkField "area_nodesize" KScalar (VAtom (ANum (1 # 20))) true None;
  mkField "zrange" KArray (VNone) true (Some 2%Z);
  mkField "lval_reference" KScalar (VAtom (ANum (1 # 5))) true None;
  mkField "maskgalfile" KScalar (VAtom (AStr "maskgals.fit")) true None;
  mkField "mask_mode" KScalar (VAtom (ANum (0 # 1))) true None;
  mkField "max_maskfrac" KScalar (VAtom (ANum (1 # 5))) true None;
  mkField "covmask_nside_default" KScalar (VAtom (ANum (32 # 1))) true None;
  mkField "maskgal_ngals" KScalar (VAtom (ANum (6000 # 1))) true None;
  mkField "maskgal_nsamples" KScalar (VAtom (ANum (100 # 1))) true None;
  mkField "maskgal_rad_stepsize" KScalar (VAtom (ANum (1 # 10))) true None;
  mkField "maskgal_dmag_extra" KScalar (VAtom (ANum (3 # 10))) true None;
  mkField "maskgal_zred_err" KScalar (VAtom (ANum (1 # 50))) true None;
  mkField "dldr_gamma" KScalar (VAtom (ANum (3 # 5))) true None;
  mkField "rsig" KScalar (VAtom (ANum (1 # 20))) true None;
  mkField "chisq_max" KScalar (VAtom (ANum (20 # 1))) true None;
  mkField "npzbins" KScalar (VAtom (ANum (21 # 1))) true None;
  mkField "zred_nsamp" KScalar (VAtom (ANum (4 # 1))) true None;
  mkField "mstar_survey" KScalar (VAtom (AStr "sdss")) false None;
  mkField "mstar_band" KScalar (VAtom (AStr "i03")) false None;
  mkField "calib_niter" KScalar (VAtom (ANum (3 # 1))) false None;
  mkField "calib_zrange_cushion" KScalar (VAtom (ANum (1 # 20))) false None;
  mkField "calib_use_pcol" KScalar (VAtom (ABool true)) false None;
  mkField "calib_smooth" KScalar (VAtom (ANum (3 # 1000))) false None;
  mkField "calib_minlambda" KScalar (VAtom (ANum (5 # 1))) false None;
  mkField "calib_redgal_template" KScalar (VNone) false None;
  mkField "calib_pivotmag_nodesize" KScalar (VAtom (ANum (1 # 10))) false None;
  mkField "calib_color_nodesizes" KArray (VSeq [ANum (1 # 20)]) false None;
  mkField "calib_slope_nodesizes" KArray (VSeq [ANum (1 # 10)]) false None;
  mkField "calib_color_maxnodes" KArray (VSeq [ANum (-(1) # 1)]) false None;
  mkField "calib_covmat_maxnodes" KArray (VSeq [ANum (-(1) # 1)]) false None;
  mkField "calib_covmat_nodesize" KScalar (VAtom (ANum (3 # 20))) false None;
  mkField "calib_covmat_constant" KScalar (VAtom (ANum (9 # 10))) false None;
  mkField "calib_corr_nodesize" KScalar (VAtom (ANum (1 # 20))) false None;
  mkField "calib_corr_slope_nodesize" KScalar (VAtom (ANum (1 # 10))) false None;
  mkField "calib_corr_nocorrslope" KScalar (VAtom (ABool true)) false None;
  mkField "calib_corr_pcut" KScalar (VAtom (ANum (9 # 10))) false None;
  mkField "calib_fit_err_ratio" KScalar (VAtom (ABool false)) false None;
  mkField "calib_err_ratio_pivot" KScalar (VAtom (ANum (20 # 1))) false None;
  mkField "calib_spec_max_zerr" KScalar (VAtom (ANum (1 # 1000))) true None;
  mkField "calib_color_nsig" KScalar (VAtom (ANum (3 # 2))) false None;
  mkField "calib_redspec_nsig" KScalar (VAtom (ANum (2 # 1))) false None;
  mkField "calib_colormem_r0" KScalar (VAtom (ANum (1 # 2))) false None;
  mkField "calib_colormem_beta" KScalar (VAtom (ANum (0 # 1))) false None;
  mkField "calib_colormem_smooth" KScalar (VAtom (ANum (3 # 1000))) false None;
  mkField "calib_colormem_minlambda" KScalar (VAtom (ANum (10 # 1))) false None;
  mkField "calib_colormem_zbounds" KArray (VSeq [ANum (2 # 5)]) false None;
  mkField "calib_colormem_colormodes" KArray (VSeq [ANum (1 # 1); ANum (2 # 1)]) false None;
  mkField "calib_colormem_sigint" KArray (VSeq [ANum (1 # 20); ANum (3 # 100)]) false None;
  mkField "calib_pcut" KScalar (VAtom (ANum (3 # 10))) false None;
  mkField "calib_color_pcut" KScalar (VAtom (ANum (7 # 10))) false None;
  mkField "calib_zlambda_nodesize" KScalar (VAtom (ANum (1 # 25))) false None;
  mkField "calib_zlambda_slope_nodesize" KScalar (VAtom (ANum (1 # 10))) false None;
  mkField "calib_zlambda_minlambda" KScalar (VAtom (ANum (20 # 1))) false None;
  mkField "calib_zlambda_clean_nsig" KScalar (VAtom (ANum (5 # 1))) false None;
  mkField "calib_zlambda_correct_niter" KScalar (VAtom (ANum (3 # 1))) false None;
  mkField "calib_lumfunc_alpha" KScalar (VAtom (ANum (-(1) # 1))) true None;
  mkField "zredc_binsize_fine" KScalar (VAtom (ANum (1 # 10000))) false None;
  mkField "zredc_binsize_coarse" KScalar (VAtom (ANum (1 # 200))) false None;
  mkField "bkg_chisqbinsize" KScalar (VAtom (ANum (1 # 2))) false None;
  mkField "bkg_refmagbinsize" KScalar (VAtom (ANum (1 # 5))) false None;
  mkField "bkg_zbinsize" KScalar (VAtom (ANum (1 # 50))) false None;
  mkField "bkg_zredbinsize" KScalar (VAtom (ANum (1 # 100))) false None;
  mkField "bkg_deepmode" KScalar (VAtom (ABool false)) false None;
  mkField "calib_make_full_bkg" KScalar (VAtom (ABool true)) false None;
  mkField "bkg_local_annuli" KArray (VSeq [ANum (2 # 1); ANum (3 # 1)]) false (Some 2%Z);
  mkField "bkg_local_compute" KScalar (VAtom (ABool false)) false None;
  mkField "bkg_local_use" KScalar (VAtom (ABool false)) false None;
  mkField "zlambda_pivot" KScalar (VAtom (ANum (30 # 1))) true None;
  mkField "zlambda_binsize" KScalar (VAtom (ANum (1 # 500))) true None;
  mkField "zlambda_maxiter" KScalar (VAtom (ANum (20 # 1))) true None;
  mkField "zlambda_tol" KScalar (VAtom (ANum (1 # 5000))) true None;
  mkField "zlambda_topfrac" KScalar (VAtom (ANum (7 # 10))) true None;
  mkField "zlambda_epsilon" KScalar (VAtom (ANum (1 # 200))) true None;
  mkField "zlambda_parab_step" KScalar (VAtom (ANum (1 # 1000))) true None;
  mkField "centerclass" KScalar (VAtom (AStr "CenteringBCG")) true None;
  mkField "centering_use_zspec" KScalar (VAtom (ABool false)) false None;
  mkField "wcen_rsoft" KScalar (VAtom (ANum (1 # 20))) true None;
  mkField "wcen_zred_chisq_max" KScalar (VAtom (ANum (100 # 1))) true None;
  mkField "wcen_minlambda" KScalar (VAtom (ANum (10 # 1))) true None;
  mkField "wcen_maxlambda" KScalar (VAtom (ANum (100 # 1))) true None;
  mkField "wcen_cal_zrange" KArray (VSeq [ANum (0 # 1); ANum (1 # 1)]) false None;
  mkField "wcen_pivot" KScalar (VAtom (ANum (30 # 1))) true None;
  mkField "wcen_uselum" KScalar (VAtom (ABool true)) true None;
  mkField "wcen_Delta0" KScalar (VAtom (ANum (0 # 1))) false None;
  mkField "wcen_Delta1" KScalar (VAtom (ANum (0 # 1))) false None;
  mkField "wcen_sigma_m" KScalar (VAtom (ANum (0 # 1))) false None;
  mkField "lnw_cen_sigma" KScalar (VAtom (ANum (-(9999) # 1))) false None;
  mkField "lnw_cen_mean" KScalar (VAtom (ANum (-(9999) # 1))) false None;
  mkField "lnw_sat_sigma" KScalar (VAtom (ANum (-(9999) # 1))) false None;
  mkField "lnw_sat_mean" KScalar (VAtom (ANum (-(9999) # 1))) false None;
  mkField "lnw_fg_sigma" KScalar (VAtom (ANum (-(9999) # 1))) false None;
  mkField "lnw_fg_mean" KScalar (VAtom (ANum (-(9999) # 1))) false None;
  mkField "phi1_mmstar_m" KScalar (VAtom (ANum (-(9999) # 1))) false None;
  mkField "phi1_mmstar_slope" KScalar (VAtom (ANum (-(9999) # 1))) false None;
  mkField "phi1_msig_m" KScalar (VAtom (ANum (-(9999) # 1))) false None;
  mkField "phi1_msig_slope" KScalar (VAtom (ANum (-(9999) # 1))) false None;
  mkField "firstpass_r0" KScalar (VAtom (ANum (1 # 2))) true None;
  mkField "firstpass_beta" KScalar (VAtom (ANum (0 # 1))) true None;
  mkField "firstpass_niter" KScalar (VAtom (ANum (2 # 1))) true None;
  mkField "firstpass_minlambda" KScalar (VAtom (ANum (3 # 1))) true None;
  mkField "firstpass_centerclass" KScalar (VAtom (AStr "CenteringBCG")) true None;
  mkField "likelihoods_r0" KScalar (VAtom (ANum (1 # 1))) true None;
  mkField "likelihoods_beta" KScalar (VAtom (ANum (1 # 5))) true None;
  mkField "likelihoods_use_zred" KScalar (VAtom (ABool true)) true None;
  mkField "likelihoods_minlambda" KScalar (VAtom (ANum (3 # 1))) true None;
  mkField "percolation_r0" KScalar (VAtom (ANum (1 # 1))) true None;
  mkField "percolation_beta" KScalar (VAtom (ANum (1 # 5))) true None;
  mkField "percolation_rmask_0" KScalar (VAtom (ANum (3 # 2))) true None;
  mkField "percolation_rmask_beta" KScalar (VAtom (ANum (1 # 5))) true None;
  mkField "percolation_rmask_gamma" KScalar (VAtom (ANum (0 # 1))) true None;
  mkField "percolation_rmask_zpivot" KScalar (VAtom (ANum (3 # 10))) true None;
  mkField "percolation_lmask" KScalar (VNone) false None;
  mkField "percolation_niter" KScalar (VAtom (ANum (2 # 1))) true None;
  mkField "percolation_minlambda" KScalar (VAtom (ANum (3 # 1))) true None;
  mkField "percolation_pbcg_cut" KScalar (VAtom (ANum (1 # 2))) true None;
  mkField "percolation_maxcen" KScalar (VAtom (ANum (5 # 1))) true None;
  mkField "percolation_memradius" KScalar (VNone) false None;
  mkField "percolation_memlum" KScalar (VNone) false None;
  mkField "zscan_r0" KScalar (VAtom (ANum (1 # 2))) true None;
  mkField "zscan_beta" KScalar (VAtom (ANum (0 # 1))) true None;
  mkField "zscan_zstep" KScalar (VAtom (ANum (1 # 200))) true None;
  mkField "zscan_minlambda" KScalar (VAtom (ANum (3 # 1))) true None;
  mkField "vlim_lstar" KScalar (VAtom (ANum (1 # 5))) false None;
  mkField "vlim_depthfiles" KList (VSeq []) false None;
  mkField "vlim_bands" KList (VSeq []) false None;
  mkField "vlim_nsigs" KArray (VSeq []) false None;
  mkField "consolidate_lambda_cuts" KArray (VSeq [ANum (5 # 1); ANum (20 # 1)]) false None;
  mkField "consolidate_vlim_lstars" KList (VSeq [ANum (1 # 5); ANum (5 # 1)]) false None;
  mkField "select_scaleval" KScalar (VAtom (ABool false)) true None;
  mkField "redmagic_calib_nodesize" KScalar (VAtom (ANum (1 # 20))) true None;
  mkField "redmagic_calib_corr_nodesize" KScalar (VAtom (ANum (1 # 20))) true None;
  mkField "redmagic_calib_buffer" KScalar (VAtom (ANum (1 # 20))) true None;
  mkField "redmagic_calib_zbinsize" KScalar (VAtom (ANum (1 # 50))) true None;
  mkField "redmagic_calib_chisqcut" KScalar (VAtom (ANum (20 # 1))) true None;
  mkField "redmagic_zrange" KArray (VSeq []) false None;
  mkField "redmagic_calib_fractrain" KScalar (VAtom (ANum (1 # 2))) true None;
  mkField "redmagic_calib_redshift_buffer" KScalar (VAtom (ANum (1 # 20))) true None;
  mkField "redmagic_maxlum" KScalar (VAtom (ANum (100 # 1))) true None;
  mkField "redmagic_mock_truthspec" KScalar (VAtom (ABool false)) true None;
  mkField "redmagic_run_afterburner" KScalar (VAtom (ABool true)) true None;
  mkField "redmagic_apply_afterburner_zsamp" KScalar (VAtom (ABool true)) true None;
  mkField "redmagic_n0s" KArray (VSeq []) true None;
  mkField "redmagic_etas" KArray (VSeq []) true None;
  mkField "redmagic_names" KList (VSeq []) true None;
  mkField "redmagic_zmaxes" KArray (VSeq []) true None;
  mkField "redmagic_constchis" KArray (VSeq []) true None;
  mkField "redmagic_use_constchi" KScalar (VAtom (ABool false)) true None
].
(** the other names in the class dictionary: methods, the property and the standard entries *)
Definition methods : list string := ["__init__"; "validate"; "copy"; "start_file_logging"; "stop_file_logging"; "_reset_vars"; "_set_vars_from_dict"; "_set_lengths"; "_galfile_stats"; "set_wcen_vals"; "_wcen_vals"; "redmapper_filename"; "check_files"; "output_yaml"; "compute_border"; "__module__"; "__doc__"; "__dict__"; "__weakref__"].
Definition find_field (n : string) : option field := find (fun f => String.eqb (f_name f) n) options.
Definition default_of (n : string) : value := match find_field n with Some f => f_default f | None => VNone end.

(** The class-level descriptors: one value and one array length per option, whatever the number of instances
    (lines 42-61: the descriptor keeps self._value). *)
Record store := mkStore { vals : string -> value; lens : string -> option Z }.
Definition fresh_store : store := mkStore default_of (fun n => match find_field n with Some f => f_len f | None => None end).
Definition upd {A} (m : string -> A) (n : string) (a : A) : string -> A := fun k => if String.eqb k n then a else m k.
Definition put (s : store) (n : string) (v : value) : store := mkStore (upd (vals s) n v) (lens s).
(** ConfigField.__get__, __set__: 63-77; the instance argument is not used. list() of a string is its characters. *)
Definition read (s : store) (instance : nat) (n : string) : value := vals s n.
Fixpoint chars (s : string) : list atom := match s with EmptyString => [] | String c t => AStr (String c EmptyString) :: chars t end.
Definition convert (k : kind) (v : value) : res value :=
  match k with
  | KScalar => Ok v                                                          (* 71-77: the ValueError is swallowed *)
  | KArray => Ok (match v with VNone => VSeq [ANone] | VAtom a => VSeq [a] | VSeq l => VSeq l end)     (* np.atleast_1d *)
  | KList => match v with VNone => Err TypeError | VAtom (AStr t) => Ok (VSeq (chars t)) | VAtom _ => Err TypeError | VSeq l => Ok (VSeq l) end
  end.
Definition assign (s : store) (instance : nat) (n : string) (v : value) : res store :=
  match find_field n with
  | Some f => do w <- convert (f_kind f) v; Ok (put s n w)
  | None => Ok s                                                    (* an ordinary instance attribute *)
  end.
(** 612-620 *)
Definition reset (s : store) : store := mkStore default_of (lens s).
(** 622-642: stops at the first problem, leaving the options set so far. *)
Definition dict := list (string * value).
Definition set_one (s : store) (n : string) (v : value) : res store :=
  match find_field n with
  | Some f => match convert (f_kind f) v with Ok w => Ok (put s n w) | Err e => Err e end
  | None => if existsb (String.eqb n) methods then Ok s else Err AttributeError      (* includes the property without a setter *)
  end.
Fixpoint set_vars (check_none : bool) (s : store) (d : dict) : store * res unit :=
  match d with
  | [] => (s, Ok tt)
  | (n, v) :: t =>
      if (check_none && match v with VNone => true | _ => false end)%bool then set_vars check_none s t
      else match set_one s n v with Ok s' => set_vars check_none s' t | Err e => (s, Err e) end
  end.
(** 93-117 *)
Definition validate_one (s : store) (f : field) : bool :=
  let v := vals s (f_name f) in
  (negb (f_required f) || match v with VNone => false | _ => true end) &&
  match f_kind f, v, lens s (f_name f) with
  | KScalar, _, _ | _, VNone, _ | _, _, None => true
  | _, VSeq l, Some k => (Z.of_nat (List.length l) =? k)%Z
  | _, VAtom _, Some k => false                                   (* not reached: arrays and lists are sequences *)
  end.
Definition validate (s : store) : res unit := if forallb (validate_one s) options then Ok tt else Err ValueError.
Definition validate_name (s : store) (n : string) : res unit :=
  match find_field n with Some f => if validate_one s f then Ok tt else Err ValueError | None => Err KeyError end.
(** 644-658 *)
Definition set_len (s : store) (k : Z) (ns : list string) : store :=
  mkStore (vals s) (fun n => if existsb (String.eqb n) ns then Some k else lens s n).
Definition num (v : value) : res Q := match v with VAtom (ANum q) => Ok q | VAtom (ABool b) => Ok (if b then 1 else 0)%Q | _ => Err TypeError end.
Definition num_at (l : list atom) (i : nat) : res Q := match nth_error l i with Some a => num (VAtom a) | None => Err IndexError end.
Definition vlen (v : value) : res nat := match v with VSeq l => Ok (List.length l) | VAtom (AStr t) => Ok (String.length t) | _ => Err TypeError end.
Definition truthy (v : value) : bool :=
  match v with VNone => false | VAtom ANone => false | VAtom (ABool b) => b | VAtom (ANum q) => negb (Qeq_bool q 0) | VAtom (AStr t) => negb (String.eqb t "")
             | VSeq l => match l with [] => false | _ => true end end.
Definition lookup (d : dict) (n : string) : value := match find (fun p => String.eqb (fst p) n) d with Some p => snd p | None => VNone end.
Definition drop (d : dict) (n : string) : dict := filter (fun p => negb (String.eqb (fst p) n)) d.
(** 795-829: the centering file, as a function from column names to values; None when there is no file. *)
Definition wcen_columns : list (string * string) :=
  [("wcen_Delta0", "delta0"); ("wcen_Delta1", "delta1"); ("wcen_sigma_m", "sigma_m"); ("wcen_pivot", "pivot"); ("lnw_fg_mean", "lnw_fg_mean");
   ("lnw_fg_sigma", "lnw_fg_sigma"); ("lnw_sat_mean", "lnw_sat_mean"); ("lnw_sat_sigma", "lnw_sat_sigma"); ("lnw_cen_mean", "lnw_cen_mean");
   ("lnw_cen_sigma", "lnw_cen_sigma")].
Definition phi1_columns : list (string * string) :=
  [("phi1_mmstar_m", "phi1_mmstar_m"); ("phi1_mmstar_slope", "phi1_mmstar_m"); ("phi1_msig_m", "phi1_msig_m"); ("phi1_msig_slope", "phi1_msig_slope")].
Record wfile := mkWfile { w_col : string -> value; w_phi1 : bool }.
Definition wcen_vals (w : wfile) : dict :=
  map (fun p => (fst p, w_col w (snd p))) (wcen_columns ++ (if w_phi1 w then phi1_columns else [])).
(** What is read from files: the statistics of the galaxy file (661-783) and the centering file. *)
Record env := mkEnv { e_stats : value -> value -> res dict; e_wcen : value -> option wfile }.

(** 409-550, without the logger and the output directories. The store is changed even when loading fails. *)
Definition area_tol : Q := 1 # 1000.
Definition area_stats (s : store) (st : dict) : res dict :=
  match vals s "area" with
  | VNone => if (match vals s "depthfile" with VNone => true | _ => false end)
             then do ns <- num (vals s "nside"); do h <- vlen (vals s "hpix");
                  if (Qlt_bool 0 ns && (0 <? h))%bool then Err RuntimeError else Ok st
             else Ok st
  | a => do qa <- num a; do qs <- num (lookup st "area"); Ok (if Qlt_bool area_tol (Qabs (qa - qs)) then drop st "area" else st)
  end.
(** 536-538; a bands option that is a plain string (substring test) is not modelled *)
Definition in_bands (b : value) (a : atom) : bool :=
  match b, a with VSeq l, AStr t => existsb (fun x => match x with AStr u => String.eqb u t | _ => false end) l | _, _ => false end.
Definition bands_ok (s : store) : bool := match vals s "vlim_bands" with VSeq l => forallb (in_bands (vals s "bands")) l | _ => true end.
Definition is_none (v : value) : bool := match v with VNone => true | _ => false end.
(** 472-480 *)
Definition fill (s : store) (n m : string) : store := if is_none (vals s n) then put s n (vals s m) else s.
Definition read_wcen (E : env) (s : store) : store * res unit :=
  match e_wcen E (vals s "wcenfile") with Some w => set_vars false s (wcen_vals w) | None => (s, Ok tt) end.
(** 504-518 *)
Definition sizes (s : store) : res (nat * Q * nat * nat) :=
  do a <- vlen (vals s "calib_colormem_zbounds"); do n <- num (vals s "nmag"); do r <- vlen (vals s "redmagic_names");
  do v <- vlen (vals s "vlim_depthfiles"); Ok (a, n, r, v).
Definition set_sizes (z : nat * Q * nat * nat) (s : store) : store :=
  let '(a, n, r, v) := z in
  let s := set_len s (Z.of_nat a + 1) ["calib_colormem_colormodes"; "calib_colormem_sigint"] in
  let s := set_len s (Qfloor n - 1) ["calib_color_nodesizes"; "calib_slope_nodesizes"; "calib_color_maxnodes"; "calib_covmat_maxnodes"] in
  let s := set_len s (Z.of_nat r) ["redmagic_n0s"; "redmagic_etas"; "redmagic_names"; "redmagic_zmaxes"] in
  set_len s (Z.of_nat v) ["vlim_bands"; "vlim_nsigs"].
(** 523-527 *)
Definition zrange_unset (s : store) : res bool :=
  match vals s "redmagic_zrange" with
  | VSeq [] => Ok true
  | VSeq l => do q0 <- num_at l 0; if Qlt_bool q0 0 then Ok true else do q1 <- num_at l 1; Ok (Qlt_bool q1 0)
  | _ => Err TypeError
  end.
Definition fix_zrange (s : store) : res store :=
  do b <- zrange_unset s;
  if b then match vals s "zrange" with VNone => Err TypeError | z => Ok (set_len (put s "redmagic_zrange" z) 2 ["redmagic_zrange"]) end
  else Ok (set_len s 2 ["redmagic_zrange"]).
(** 532-541 *)
Definition final_checks (s : store) : res unit :=
  if (negb (is_none (vals s "maskfile")) && match num (vals s "mask_mode") with Ok q => Qeq_bool q 0 | Err _ => false end)%bool then Err ValueError
  else if negb (bands_ok s) then Err ValueError
  else match vals s "bkg_local_annuli" with
       | VSeq l => do a0 <- num_at l 0; do a1 <- num_at l 1; if Qle_bool a1 a0 then Err ValueError else Ok tt
       | _ => Err TypeError
       end.
(** 467-541 *)
Definition finish (E : env) (st : dict) (s : store) : store * res unit :=
  if (truthy (vals s "has_truth") && negb (truthy (lookup st "galfile_has_truth")))%bool then (s, Err RuntimeError)
  else if (truthy (vals s "centering_use_zspec") && negb (truthy (lookup st "galfile_has_zspec")))%bool then (s, Err RuntimeError)
  else match read_wcen E (fill s "limmag_catalog" "limmag_ref") with
       | (s, Err e) => (s, Err e)
       | (s, Ok _) =>
         let s := fill s "specfile_train" "specfile" in
         match sizes s with
         | Err e => (s, Err e)
         | Ok z => let s := set_sizes z s in
                   match fix_zrange s with
                   | Err e => (s, Err e)
                   | Ok s => (s, do _ <- validate s; final_checks s)
                   end
         end
       end.
Definition load (E : env) (d : dict) (outpath : option value) (s0 : store) : store * res unit :=
  match set_vars false (reset s0) d with
  | (s, Err e) => (s, Err e)
  | (s, Ok _) =>
    let s := match outpath with Some v => put s "outpath" v | None => s end in
    match (do _ <- validate_name s "galfile"; validate_name s "refmag") with
    | Err e => (s, Err e)
    | Ok _ =>
      match (do st <- e_stats E (vals s "galfile") (vals s "refmag"); do st' <- area_stats s st; Ok (st, st')) with
      | Err e => (s, Err e)
      | Ok (st, st') => match set_vars true s st' with
                        | (s, Err e) => (s, Err e)
                        | (s, Ok _) => finish E st s
                        end
      end
    end
  end.

(** 150-167, 544, 568-572: the per-region part of a configuration is an object; copy.copy copies the reference. *)
Record dup := mkDup { du_outbase : value; du_hpix : value; du_nside : value }.
Record heap := mkHeap { objs : nat -> dup; next : nat }.
Record cinst := mkInst { ci_id : nat; ci_d : nat }.
Definition new_d (h : heap) (x : dup) : heap * nat := (mkHeap (fun k => if Nat.eqb k (next h) then x else objs h k) (S (next h)), next h).
Definition copy_config (c : cinst) (id : nat) : cinst := mkInst id (ci_d c).
Definition set_d (h : heap) (c : cinst) (x : dup) : heap := mkHeap (fun k => if Nat.eqb k (ci_d c) then x else objs h k) (next h).
Definition get_d (h : heap) (c : cinst) : dup := objs h (ci_d c).
