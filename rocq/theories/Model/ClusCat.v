(** The columns of a catalogue of clusters: cluster.py:23-63 (the base columns), 872-918 (constructor), 920-978 (from a file, zeros),
    980-1000 (subsets); configuration.py:483-498 (the columns of a configuration); cluster_runner.py:597-602 (the catalogue that a run
    leaves); run_randoms_zmask.py:78-102 and run_zscan.py:54-80, run_colormem.py:71-86 (the columns of three kinds of run).
    Simplifications: tables as in Model/Catalog.v; the settings handed on (r0, beta, zredstr, bkg, ...) other than the configuration
    are left out, they are handed on and dropped together with it. *)
From Coq Require Import String.
From Verif.Base Require Import Py.
From Verif.Model Require Import Catalog.
Local Open Scope string_scope.

(** cluster.py:23-63 [cluster_dtype_base], the names *)
Definition base_columns : list string :=
  ["MEM_MATCH_ID"; "RA"; "DEC"; "Z"; "REFMAG"; "REFMAG_ERR"; "LAMBDA"; "LAMBDA_E"; "Z_LAMBDA"; "Z_LAMBDA_E"; "CG_SPEC_Z";
   "Z_SPEC_INIT"; "Z_INIT"; "R_LAMBDA"; "R_MASK"; "SCALEVAL"; "MASKFRAC"; "ZRED"; "ZRED_E"; "ZRED_CHISQ"; "CHISQ"; "Z_LAMBDA_NITER";
   "EBV_MEAN"; "LNLAMLIKE"; "LNCGLIKE"; "LNLIKE"; "RA_ORIG"; "DEC_ORIG"; "W"; "DLAMBDA_DZ"; "DLAMBDA_DZ2"; "DLAMBDAVAR_DZ";
   "DLAMBDAVAR_DZ2"; "Z_LAMBDA_RAW"; "Z_LAMBDA_E_RAW"; "BKG_LOCAL"; "LIM_EXPTIME"; "LIM_LIMMAG"; "LIM_LIMMAG_HARD"; "LAMBDA_C";
   "LAMBDA_CE"; "NCENT_GOOD"; "MASKGAL_INDEX"].
(** configuration.py:483-498: [self.cluster_dtype] *)
Definition config_columns : list string :=
  (base_columns ++ ["MAG"; "MAG_ERR"; "PZBINS"; "PZ"; "RA_CENT"; "DEC_CENT"; "ID_CENT"; "LAMBDA_CENT"; "ZLAMBDA_CENT"; "P_CEN"; "Q_CEN";
                    "P_FG"; "Q_MISS"; "P_SAT"; "P_C"])%list.

(** cluster.py:906-912: which columns are wanted; [config] is the list of the configuration, when there is one *)
Definition wanted (dtype config : option (list string)) : list string :=
  match dtype with
  | Some d => d
  | None => match config with Some k => k | None => base_columns end
  end.

(** A catalogue of clusters: its table and the columns of its configuration (None: it has none). *)
Record ccat := mkCC { cc_tab : table; cc_config : option (list string) }.

(** cluster.py:872-918 *)
Definition clus_init (arr : table) (dtype config : option (list string)) : res ccat :=
  do t <- catalog_init [arr];
  let aug := filter (fun x => negb (mem_str (lower x) (names t))) (wanted dtype config) in
  do u <- (match aug with [] => Ok t | _ => add_fields t aug end);
  Ok (mkCC u config).

(** cluster.py:920-946: the file's names arrive in upper case, the constructor lowers them *)
Definition from_catfile (file : table) (config : option (list string)) : res ccat := clus_init file None config.

(** cluster.py:948-978: without a dtype the base columns, also when there is a configuration *)
Definition clus_zeros (n : nat) (dtype config : option (list string)) : res ccat :=
  do z <- np_zeros n (match dtype with Some d => d | None => base_columns end);
  clus_init z dtype config.

(** cluster.py:992-1000: a subset is built without the dtype of the catalogue *)
Definition subset (c : ccat) (idx : list nat) : res ccat :=
  do t <- take_rows (cc_tab c) idx; clus_init t None (cc_config c).

(** cluster_runner.py:597-602: the rows that are kept, in a catalogue without configuration *)
Definition crop (c : ccat) (use : list nat) : res ccat :=
  do t <- take_rows (cc_tab c) use; clus_init t None None.

(** subsets of subsets *)
Fixpoint subsets (c : ccat) (l : list (list nat)) : res ccat :=
  match l with
  | [] => Ok c
  | i :: r => do d <- subset c i; subsets d r
  end.

(** run_randoms_zmask.py:78-93 *)
Definition randoms_columns : list string :=
  ["MEM_MATCH_ID"; "RA"; "DEC"; "Z"; "LAMBDA"; "LAMBDA_E"; "Z_LAMBDA"; "Z_LAMBDA_E"; "R_LAMBDA"; "R_MASK"; "SCALEVAL"; "MASKFRAC";
   "EBV_MEAN"; "ID_INPUT"; "LAMBDA_IN"; "Z_IN"].
(** run_randoms_zmask.py:95-102 *)
Definition randoms_cat (n : nat) (config : list string) : res ccat := clus_zeros n (Some randoms_columns) (Some config).

(** run_zscan.py:67-78 *)
Definition zscan_columns : list string :=
  ["z_steps"; "lambda_steps"; "likelihood_steps"; "lmax"; "max_ind"; "zmax"; "ra_opt"; "dec_opt"; "lambda_opt"; "lambda_opt_e";
   "z_lambda_opt"; "z_lambda_opt_e"].
(** run_zscan.py:54-80 and run_colormem.py:71-86: the file is read and the columns of the run are added *)
Definition open_with (extra : list string) (file : table) (config : list string) : res ccat :=
  do c <- from_catfile file (Some config);
  do t <- add_fields (cc_tab c) extra;
  Ok (mkCC t (cc_config c)).
Definition zscan_open := open_with zscan_columns.
Definition colormem_open := open_with ["redcolor"].
