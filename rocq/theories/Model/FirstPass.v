(** The first pass of the cluster finder: run_firstpass.py:97-309 (seed selection and the work on one cluster),
    with cluster.py:141-142, 159-162, 785-801 (radius constants and redshift of a cluster) and 897-898, 980-1000
    (radius constants of a catalog).
    Simplified: columns are read as exact rationals (the files hold f4/f8); magnitudes are opaque cells.
    Parameters: the characteristic magnitude mstar(z), the constant 2.5*log10(lval_reference), the survey mask, and
    what calc_richness and calc_zlambda return for the nth iteration at a given redshift. *)
From Coq Require Import QArith Qabs.
From Verif.Base Require Import Py.
Local Open Scope nat_scope.
Local Open Scope list_scope.

(** a row of the seed file *)
Record seed := mkSeed { sd_ra : Q; sd_dec : Q; sd_mag : Z; sd_refmag : Q; sd_zred : Q; sd_zred_e : Q; sd_chisq : Q;
  sd_ebv : Q; sd_zspec : Q }.
(** a galaxy with its photometric redshift *)
Record gal := mkGal { g_ra : Q; g_dec : Q; g_mag : Z; g_refmag : Q; g_zred : Q; g_zred_e : Q; g_chisq : Q }.
(** a row of the cluster catalog, as far as it is filled here *)
Record crow := mkRow { c_ra : Q; c_dec : Q; c_mag : Z; c_refmag : Q; c_zred : Q; c_zred_e : Q; c_zred_chisq : Q;
  c_chisq : Q; c_ebv : Q; c_zspec : Q; c_zinit : Q; c_z : Q }.
(** a catalog: r0 and beta as given to the constructor (None: not given), and the rows *)
Record ccat := mkCat { cc_r0 : option Q; cc_beta : option Q; cc_rows : list crow }.

(** the configuration and the run's flags *)
Record fconf := mkFC { fc_zlo : Q; fc_zhi : Q; fc_chisqmax : Q; fc_r0 : Q; fc_beta : Q; fc_minlambda : Q; fc_niter : Z;
  fc_spec : bool; fc_keepz : bool; fc_clean : bool }.

(** run_firstpass.py:129-155: the catalog of all seeds *)
Definition row_of_seed (f : fconf) (s : seed) : crow :=
  let z := if fc_spec f then sd_zspec s else sd_zred s in
  mkRow (sd_ra s) (sd_dec s) (sd_mag s) (sd_refmag s) (sd_zred s) (sd_zred_e s) (sd_chisq s) (sd_chisq s) (sd_ebv s)
        (sd_zspec s) z z.
(** run_firstpass.py:157-161, 185-189 (cutgals_chisqmax is set, line 73) *)
Definition cuse (f : fconf) (zred chisq : Q) : bool :=
  Qle_bool (fc_zlo f) zred && Qle_bool zred (fc_zhi f) && Qlt_bool chisq (fc_chisqmax f).
(** run_firstpass.py:126-179; None: no catalog (return False) *)
Definition from_seeds (f : fconf) (inmask : Q -> Q -> bool) (seeds : list seed) : option ccat :=
  let all := map (row_of_seed f) seeds in
  let rows := filter (fun r => cuse f (c_zred r) (c_chisq r)) all in
  if Nat.eqb (length rows) 0 then None
  else if fc_clean f then
    let rows := filter (fun r => inmask (c_ra r) (c_dec r)) rows in
    if Nat.eqb (length rows) 0 then None else Some (mkCat (Some (fc_r0 f)) (Some (fc_beta f)) rows)
  else Some (mkCat (Some (fc_r0 f)) (Some (fc_beta f)) rows).

(** run_firstpass.py:208-226: columns that are not assigned stay 0 *)
Definition row_of_gal (g : gal) : crow :=
  mkRow (g_ra g) (g_dec g) (g_mag g) (g_refmag g) (g_zred g) (g_zred_e g) (g_chisq g) (g_chisq g) 0 0 (g_zred g) (g_zred g).
(** run_firstpass.py:180-226: [ClusterCatalog.zeros] is called without r0 and beta *)
Definition from_gals (f : fconf) (mstar : Q -> Q) (dm : Q) (gals : list gal) : option ccat :=
  let use := np_where (fun g => cuse f (g_zred g) (g_chisq g)) gals in
  if Nat.eqb (length use) 0 then None
  else
    let good := np_where (fun g => Qlt_bool (g_refmag g) (mstar (g_zred g) - dm)) (np_sel gals use) in
    if Nat.eqb (length good) 0 then None
    else Some (mkCat None None (map row_of_gal (np_sel gals (np_sel use good)))).

(** run_firstpass.py:115-124: [seedfile] is None when config.seedfile is not set or is not a file; [zreds] says
    whether the galaxies were read with their photometric redshifts *)
Definition more_setup (f : fconf) (mstar : Q -> Q) (dm : Q) (inmask : Q -> Q -> bool) (zreds : bool)
    (seedfile : option (list seed)) (gals : list gal) : res (option ccat) :=
  match seedfile with
  | Some seeds => Ok (from_seeds f inmask seeds)
  | None => if fc_spec f then Err RuntimeError
            else if zreds then Ok (from_gals f mstar dm gals) else Err RuntimeError
  end.

(** cluster.py:141-142, the catalog handing on its own values (980-991) *)
Definition cluster_r0 (c : ccat) : Q := match cc_r0 c with Some r => r | None => 1 end.
Definition cluster_beta (c : ccat) : Q := match cc_beta c with Some b => b | None => 2 # 10 end.

(** cluster.py:785-801: the redshift's setter *)
Definition set_redshift (v : Q) : res Q := if Qlt_bool v 0 then Err ValueError else Ok (Qmax2 (1 # 100) v).
(** cluster.py:159-162 and cluster_runner.py:397-398: without a positive redshift mpc_scale is None, and the
    radius of the neighbor search cannot be computed from it *)
Definition start (r : crow) : res Q := if Qlt_bool 0 (c_z r) then set_redshift (c_z r) else Err TypeError.

(** what the two calculations return in the nth iteration at a redshift: richness and scaleval; redshift, error
    and number of iterations *)
Record oracle := mkO { o_rich : nat -> Q -> Q * Q; o_zl : nat -> Q -> Q * Q * nat }.

(** the variables of the loop: redshift, last richness, and the last z_lambda (unbound at first) *)
Record fstate := mkF { f_z : Q; f_lam : Q; f_last : option (Q * Q * nat) }.
(** run_firstpass.py:261-288.  [i < maxiter] always holds.  [true]: bad *)
Fixpoint iter (f : fconf) (o : oracle) (i todo : nat) (s : fstate) : res (fstate * bool) :=
  match todo with
  | O => Ok (s, false)
  | S todo' =>
      let '(lam, scale) := o_rich o i (f_z s) in
      if Qlt_bool lam (Qabs (fc_minlambda f / scale)) then Ok (mkF (f_z s) (-1) (f_last s), true)
      else
        let '(zl, zle, n) := o_zl o i (f_z s) in
        if Qlt_bool zl (fc_zlo f) || Qlt_bool (fc_zhi f) zl then Ok (mkF (f_z s) (-1) (Some (zl, zle, n)), true)
        else
          do z <- (if fc_keepz f then Ok (f_z s) else set_redshift zl);
          iter f o (S i) todo' (mkF z lam (Some (zl, zle, n)))
  end.
(** run_firstpass.py:238-240 *)
Definition maxiter (f : fconf) : nat := if fc_spec f then 1 else Z.to_nat (fc_niter f).

(** np.argmin: position of the first smallest value *)
Fixpoint argmin_from (i best : nat) (v : Q) (l : list Q) : nat :=
  match l with
  | [] => best
  | x :: t => if Qlt_bool x v then argmin_from (S i) i x t else argmin_from (S i) best v t
  end.
Definition argmin (l : list Q) : res nat :=
  match l with [] => Err ValueError | x :: t => Ok (argmin_from 1 0 x t) end.

(** a neighbor: radius and chi-squared *)
Notation nbr := (Q * Q)%type (only parsing).
(** the record of the cluster after [_process_cluster] *)
Record frec := mkFR { fr_bad : bool; fr_lambda : Q; fr_zl : Q; fr_zle : Q; fr_niter : nat; fr_chisq : Q; fr_z : Q }.
(** run_firstpass.py:246-309.  [nbs z]: the neighbors, their radii in Mpc at the redshift z *)
Definition process (f : fconf) (o : oracle) (nbs : Q -> list nbr) (r : crow) (z0 : Q) : res frec :=
  do sb <- iter f o 0 (maxiter f) (mkF z0 0 None);
  let '(s, bad) := sb in
  do zl <- (if bad then Ok (-(1), -(1), 0%nat)%Q
            else match f_last s with Some x => Ok x | None => Err UnboundLocalError end);
  let '(z, ze, n) := zl in
  let nb := nbs (f_z s) in
  do k <- argmin (map fst nb);
  do x <- match nth_error nb k with Some x => Ok x | None => Err IndexError end;
  Ok (mkFR bad (f_lam s) z ze n (snd x) (if fc_spec f then c_zspec r else z)).
