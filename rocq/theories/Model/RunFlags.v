(** What each kind of run is set to do, and the files it writes: cluster_runner.py:66-81 (constructor), 263-275 (defaults of a run), 356-382
    (passes), 629-670 (output, filename); run_colormem.py:48-49, 98-103; run_firstpass.py:68, 75-78, 230-242; run_likelihoods.py:56, 68, 149-156;
    run_percolation.py:77, 83, 195-223; run_zscan.py:33, 39-40, 91-111; runcat.py:30, 35, 89-98; run_randoms_zmask.py:42-51, 113-118;
    configuration.py:866-871.  The object is a map from the names of its attributes to values, so a misspelt attribute is one more
    attribute.  Simplified: the catalogues are opaque, and the path of the output and the base name are lists of characters. *)
From Coq Require Import QArith Ascii String.
From Verif.Base Require Import Py.
From Verif.Model Require Import Names.
From Coq Require Import List. Import ListNotations.
Local Open Scope string_scope.
Local Open Scope list_scope.

(** ** the attributes *)
Inductive val := VB (b : bool) | VQ (q : Q) | VS (s : string).
Definition attrs := string -> option val.
Definition setattr (a : attrs) (p : string * val) : attrs := fun n => if String.eqb n (fst p) then Some (snd p) else a n.
Definition setall (a : attrs) (l : list (string * val)) : attrs := fold_left setattr l a.
Definition getattr (a : attrs) (n : string) : res val := match a n with Some v => Ok v | None => Err AttributeError end.
(** truth of a value in [if] *)
Definition truth (v : val) : bool :=
  match v with VB b => b | VQ q => negb (Qeq_bool q 0) | VS s => negb (String.eqb s "") end.
Definition flag (a : attrs) (n : string) : res bool := do v <- getattr a n; Ok (truth v).

(** ** the kinds of run *)
Inductive kind := Colormem | Firstpass (spec : bool) | Likelihoods | Percolation | Zscan | Runcat (masking : bool) | RandomsZmask.
(** the settings used here; [None]: not set *)
Record conf := mkCfg { f_minlambda : Q; p_minlambda : Q; z_minlambda : Q; p_memradius : option Q }.
(** _additional_initialization, the attributes used here: run_randoms_zmask.py:44-48 ([depthfile]: config.depthfile is not None), run_zscan.py:39 *)
Definition initialize (depthfile : bool) (k : kind) : list (string * val) :=
  match k with RandomsZmask => [("read_gals", VB (negb depthfile))] | Zscan => [("use_rmask_settings", VB false)] | _ => [] end.
(** cluster_runner.py:66-81, the attributes used here *)
Definition construct (depthfile : bool) (k : kind) (a : attrs) : attrs :=
  setall (setall a [("read_gals", VB true); ("use_maxmag_in_matching", VB true); ("use_rmask_settings", VB true)]) (initialize depthfile k).
(** cluster_runner.py:263-273 *)
Definition defaults : list (string * val) :=
  [("do_percolation_masking", VB false); ("do_lam_plusminus", VB false); ("use_memradius", VB false); ("use_memlum", VB false);
   ("match_centers_to_galaxies", VB false); ("min_lambda", VQ (-1)); ("record_members", VB false); ("doublerun", VB false);
   ("do_correct_zlambda", VB false); ("do_pz", VB false)].
(** run_percolation.py:201-204 *)
Definition memradius (c : conf) : bool := match p_memradius c with Some x => Qlt_bool 1 x | None => false end.
(** _more_setup of each kind *)
Definition more_setup (c : conf) (k : kind) : list (string * val) :=
  match k with
  | Colormem => [("do_lam_plusminus", VB false); ("record_members", VB false); ("doublerun", VB true)]
  | Firstpass _ =>
      [("do_lam_plusminus", VB false); ("match_centers_to_galaxies", VB false); ("do_percolation_masking", VB false);
       ("do_correct_zlambda", VB false); ("do_pz", VB false); ("min_lambda", VQ (f_minlambda c))]
  | Likelihoods =>
      [("do_lam_plusminux", VB false); ("match_centers_to_galaxies", VB false); ("record_members", VB false);   (* 150: so written *)
       ("do_correct_zlambda", VB false); ("do_pz", VB false)]
  | Percolation =>
      [("do_percolation_masking", VB true); ("do_lam_plusminus", VB true); ("record_members", VB true); ("do_correct_zlambda", VB true);
       ("do_pz", VB true); ("use_memradius", VB (memradius c)); ("use_memlum", VB false); ("min_lambda", VQ (p_minlambda c))]
  | Zscan =>
      [("do_percolation_masking", VB false); ("do_lam_plusminus", VB true); ("match_centers_to_galaxies", VB false);
       ("record_members", VB true); ("do_correct_zlambda", VB true); ("do_pz", VB true); ("use_maxmag_in_matching", VB false);
       ("min_lambda", VQ (z_minlambda c))]
  | Runcat m =>
      [("do_percolation_masking", VB m); ("do_lam_plusminus", VB true); ("match_centers_to_galaxies", VB true);
       ("record_members", VB true); ("do_correct_zlambda", VB true); ("do_pz", VB true)]
  | RandomsZmask =>
      [("do_lam_plusminus", VB false); ("match_centers_to_galaxies", VB false); ("do_percolation_masking", VB false); ("record_members", VB false)]
  end.
(** the attributes when the loop over clusters starts; [a]: the object as an earlier run left it *)
Definition ready (c : conf) (k : kind) (a : attrs) : attrs := setall (setall a defaults) (more_setup c k).

(** ** the passes of a run: cluster_runner.py:365-381.  For each pass, the attributes it is done with *)
Definition passes (a : attrs) : res (list attrs) :=
  do d <- flag a "doublerun";
  if d then
    let a1 := setattr a ("do_percolation_masking", VB false) in
    let a2 := setall a1 [("do_percolation_masking", VB true); ("record_members", VB true)] in
    Ok [a1; a2]
  else Ok [a].
(** what a pass does: 404 (shared galaxies are discounted), 500 (the galaxies are shared), 539 (members are recorded), 454-455 (corrected
    redshift, with its density), 479 (derivatives of the richness) *)
Record doing := mkDoing { d_shares : bool; d_records : bool; d_corrects : bool; d_density : bool; d_slopes : bool }.
Definition does (a : attrs) : res doing :=
  do s <- flag a "do_percolation_masking"; do r <- flag a "record_members"; do z <- flag a "do_correct_zlambda"; do p <- flag a "do_pz";
  do l <- flag a "do_lam_plusminus"; Ok (mkDoing s r z (z && p) l).
Fixpoint does_all (l : list attrs) : res (list doing) :=
  match l with [] => Ok [] | a :: t => do d <- does a; do ds <- does_all t; Ok (d :: ds) end.
Definition run_passes (c : conf) (k : kind) (a : attrs) : res (list doing) := do l <- passes (ready c k a); does_all l.
(** the attributes the run ends with *)
Definition after (c : conf) (k : kind) (a : attrs) : res attrs := do l <- passes (ready c k a); Ok (last l a).

(** 598: is a cluster kept by the post-processing of the base class; the first member run and the likelihood run have their own
    (run_colormem.py:154-, run_likelihoods.py:242-; Model/Colormem, Model/Likelihood) *)
Definition keeps (c : conf) (k : kind) (a : attrs) (lam : Q) : res bool :=
  do a1 <- after c k a; do m <- getattr a1 "min_lambda";
  match m with VQ q => Ok (Qle_bool q lam) | VB b => Ok (Qle_bool (if b then 1 else 0) lam) | VS _ => Err TypeError end.

(** ** the files: runner attribute filetype of each kind *)
Definition filetype (k : kind) : string :=
  match k with
  | Colormem => "colormem" | Firstpass false => "firstpass" | Firstpass true => "firstpass_spec" | Likelihoods => "like" | Percolation => "final"
  | Zscan => "zscan" | Runcat _ => "lambda_chisq" | RandomsZmask => "randoms_zmask"
  end.
(** where the files of a run go: the path of the output, the base name of the configuration, the version of the code *)
Record place := mkPlace { o_path : str; o_base : str; o_version : str }.
(** configuration.py:866-871 *)
Definition redmapper_filename (p : place) (name : string) (withversion : bool) (outbase : option str) : str :=
  let b := match outbase with Some b => b | None => o_base p end in
  let b := if withversion then b ++ s_ "_redmapper_v" ++ o_version p else b in
  o_path p ++ s_ "/" ++ b ++ s_ "_" ++ s_ name ++ s_ ".fit".
(** a disk: the tables in a file, one after the other; fitsio.write with clobber starts the file again, without it adds a table *)
Definition disk := str -> list Z.
Definition same (a b : str) : bool := if list_eq_dec ascii_dec a b then true else false.
Definition write (d : disk) (n : str) (t : Z) (clobber : bool) : disk :=
  fun m => if same m n then (if clobber then [t] else d m ++ [t]) else d m.
(** cluster_runner.py:629-658: the disk and the name remembered *)
Definition output (p : place) (k : kind) (d : disk) (cat members : option Z) (savemembers withversion clobber : bool) (outbase : option str) : disk * str :=
  let name := redmapper_filename p (filetype k ++ "_catalog")%string withversion outbase in
  match cat with
  | None => (d, name)
  | Some t =>
      let d := write d name t clobber in
      match savemembers, members with
      | true, Some m => (write d (redmapper_filename p (filetype k ++ "_catalog_members")%string withversion outbase) m clobber, name)
      | _, _ => (d, name)
      end
  end.
(** 660-670 *)
Definition filename (p : place) (k : kind) (remembered : option str) : str :=
  match remembered with Some n => n | None => redmapper_filename p (filetype k ++ "_catalog")%string false None end.
