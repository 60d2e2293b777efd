(** The set-up of a run over clusters: cluster_runner.py:66-77, 145-258 (_setup: what is read and which galaxies are used), 343-354
    (centers and galaxies); the settings of the runs: run_colormem.py:46-53, run_firstpass.py:70-73, run_likelihoods.py:57-66,
    run_percolation.py:78-82, run_zscan.py:34-39, runcat.py:31-34, run_randoms_zmask.py:44-50; galaxy.py:155-163 (a galaxy file that
    is not in pixels). *)
From Coq Require Import QArith.
From Verif.Base Require Import Py.
From Verif.Model Require Import Galfile.
From Verif.Model Require Richness.
From Coq Require Import List. Import ListNotations.
Local Open Scope Q_scope.

(** ** galaxy files: in pixels, or one table with or without a table of zreds *)
Inductive galfile := Pix (g : geo) (nside_tab : nat) (tab : list entry) | Plain (g : geo) (rows : list row) (zs : option (list zrow)).
(** galaxy.py:131-163 *)
Definition read (f : galfile) (a : args) : res (list orow) :=
  match f with
  | Pix g nt tab => from_galfile g nt tab a
  | Plain g rows zs =>
      do _ <- check_args g (a_nside a) a;
      if a_zred a then
        match zs with
        | None => Err IOError
        | Some z => if Nat.eqb (List.length z) (List.length rows) then Ok (combine rows (map Some z)) else Err ValueError
        end
      else Ok (map (fun r => (r, None)) rows)
  end.

(** ** the settings of a run; [n_bkgrange = None]: cutgals_bkgrange is never set *)
Record runner := mkRun { n_gals : bool; n_zreds : bool; n_required : bool; n_bkgrange : option bool; n_chisq : bool; n_color : bool }.
Definition colormem : runner := mkRun true false false (Some false) false true.
Definition firstpass : runner := mkRun true true false (Some true) true false.
(** [zred]: the centering needs zreds (run_likelihoods.py:58) *)
Definition likelihoods (zred : bool) : runner := mkRun true zred zred (Some true) true false.
Definition percolation : runner := mkRun true true true (Some true) false false.
Definition zscan : runner := mkRun true true true (Some true) false false.
Definition runcat : runner := mkRun true false false (Some true) true false.
Definition randoms_zmask (has_depthfile : bool) : runner := mkRun (negb has_depthfile) false false None false false.

(** what is configured; [c_bins]: the magnitude bins of the background *)
Record conf := mkConf { c_zredfile : bool; c_temp : bool; c_chimax : Q; c_bins : list Q; c_nside : nat; c_hpix : list Z; c_border : Q }.
Definition huge : Q := inject_Z (10 ^ 100).
(** 201-206 *)
Definition mag_range (r : runner) (c : conf) : res (Q * Q) :=
  match n_bkgrange r with
  | None => Err AttributeError
  | Some false => Ok (- (1000), 1000)
  | Some true =>
      if n_color r then Err AttributeError                     (* 147: self.bkg is None *)
      else match c_bins c with
           | b0 :: b1 :: t => Ok (b0, last (b1 :: t) b0 + (b1 - b0))
           | _ => Err IndexError
           end
  end.
(** 208-245 *)
Definition run_gals (r : runner) (c : conf) (zred : bool) (f : galfile) : res (list orow) :=
  do range <- mag_range r c;
  if c_temp c then
    read f (mkA (c_nside c) (c_hpix c) (c_border c) zred true range (if n_chisq r then c_chimax c else huge))
  else
    do gals <- read f (mkA (c_nside c) (c_hpix c) (c_border c) zred false (- (1000), 1000) huge);
    Ok (filter (fun o => Qlt_bool (fst range) (rmag (fst o)) && Qlt_bool (rmag (fst o)) (snd range) &&
                         (if zred && n_chisq r then match snd o with Some z => Qlt_bool (zchi z) (c_chimax c) | None => false end else true)) gals).
(** ** 175-258; [depth]: reading the depth map; [local]: the depths from the galaxies.  Ok None: no catalog will be produced *)
Inductive depths (D : Type) := FromMap (d : D) | Local (d : D).
Arguments FromMap {D}. Arguments Local {D}.
Definition setup {D} (r : runner) (c : conf) (f : galfile) (depth : res D) (local : list orow -> res D) : res (option (list orow * depths D)) :=
  let depthstr := match depth with Ok d => Some d | Err _ => None end in                         (* 176-179 *)
  if (match depthstr with None => true | _ => false end) && negb (n_gals r) then Err RuntimeError
  else
    let zred := n_zreds r && c_zredfile c in
    if n_required r && negb zred then Err RuntimeError
    else
      do gals <- (if n_gals r then do g <- run_gals r c zred f; Ok (Some g) else Ok None);
      match gals with
      | Some [] => Ok None
      | _ =>
          let gs := match gals with Some g => g | None => [] end in
          match depthstr with
          | Some d => Ok (Some (gs, FromMap d))
          | None => match local gs with Ok d => Ok (Some (gs, Local d)) | Err RuntimeError => Ok None | Err e => Err e end
          end
      end.

(** ** 344-349: the magnitudes of the centers; [pairs]: the matches, cluster and galaxy; a[i0] = b[i1] writes in order *)
Definition match_centers {A} (cat : list A) (gals : list A) (pairs : list (nat * nat)) : list A :=
  fold_left (fun cat ij => match nth_error gals (snd ij) with Some v => Richness.set_nth cat (fst ij) v | None => cat end) pairs cat.
