(** The background tables: background.py:289-417 (BackgroundGenerator.run), 420-569 (_worker), 590-739
    (ZredBackgroundGenerator.run), 41-128 (Background.__init__) and 185-232 (ZredBackground.__init__).  Exact rational
    arithmetic.  One redshift bin of the worker at a time (the bins do not interact); the table of log chi-squared
    (550-564) is the same computation on other positions and is not modelled.  The chi-squared of a galaxy at the redshift
    of the bin, the magnitude limit of the bin and the areas are given. *)
From Coq Require Import QArith Qround Qabs.
From Verif.Base Require Import Py.
From Verif.Model Require Import Util.
Local Open Scope nat_scope.

(** 317-323, 617-623: bins of the given size from lo; the number is rounded up *)
Definition nbins (lo hi size : Q) : Z := Qceiling ((hi - lo) / size)%Q.
Definition bins (lo hi size : Q) : list Q :=
  map (fun i => (inject_Z (Z.of_nat i) * size + lo)%Q) (seq 0 (Z.to_nat (nbins lo hi size))).

(** 485-488: the faintest magnitude used in a redshift bin, from the magnitude [zl] of 0.1 (or 0.01) Lstar *)
Definition mag_cut (lo hi size zl : Q) : res Q :=
  let n := nbins lo hi size in
  let zl := if Qle_bool hi zl then (hi - (1#100))%Q else zl in
  let pos := clipZ 0 (n - 1) (Qtrunc ((zl - lo) * inject_Z n / (hi - lo))%Q) in
  do e <- py_index (bins lo hi size) pos;
  Ok (e + size)%Q.

(** a galaxy: reference magnitude and chi-squared (at the redshift of the bin) *)
Record gal := mkG { g_mag : Q; g_chi : Q }.

(** 493-528, pixelised galaxy file: the arrays refmags and chisqs[:, i] filled pixel by pixel.  [pix]: the galaxies of each
    selected pixel, as many as the galaxy table says (master.ngals).  [use]: 523-524. *)
Definition put {A} (l : list A) (at_ : nat) (vals : list A) : list A := firstn at_ l ++ vals ++ skipn (at_ + List.length vals) l.
Definition used (mlo cut : Q) (g : gal) : bool := Qlt_bool mlo (g_mag g) && Qlt_bool (g_mag g) cut.
Fixpoint fill (mlo cut : Q) (ngal ctr : nat) (pix : list (list gal)) (mags chis : list Q) : list Q * list Q :=
  match pix with
  | [] => (mags, chis)
  | gals :: t =>
      if Nat.ltb ctr ngal then
        if Nat.eqb (List.length gals) 0 then fill mlo cut ngal ctr t mags chis
        else fill mlo cut ngal (ctr + List.length gals) t
               (put mags ctr (map g_mag gals))
               (put chis ctr (map (fun og => if used mlo cut (snd og) then g_chi (snd og) else fst og)
                                  (combine (firstn (List.length gals) (skipn ctr chis)) gals)))
      else (mags, chis)
  end.

(** 536-548, 692-710: selection, cloud-in-cell and density, with [nm] magnitude bins and [nx] bins of the other quantity.
    [keep] is the selection on the magnitude, [floor] the treatment of the counts of a cell. *)
Definition table (xlo xhi xsize mlo mhi msize : Q) (areas : list Q) (keep : Q -> bool) (floor : Q -> Q)
    (xs mags : list Q) : res (list (list Q)) :=
  let nx := nbins xlo xhi xsize in
  let nm := nbins mlo mhi msize in
  let sel := filter (fun xm => Qle_bool xlo (fst xm) && Qlt_bool (fst xm) xhi && keep (snd xm)) (combine xs mags) in
  let samples := map (fun xm => mkSa [((fst xm - xlo) * inject_Z nx / (xhi - xlo))%Q;
                                      ((snd xm - mlo) * inject_Z nm / (mhi - mlo))%Q] 1%Q) sel in
  do field <- cic true false [nx; nm] samples;
  Ok (map (fun m => map (fun j => (floor (nth (j + Z.to_nat nx * m) field 0) / (nth m areas 0 * (msize * xsize)))%Q)
                        (seq 0 (Z.to_nat nx)))
          (seq 0 (Z.to_nat nm))).

(** 317-569, one redshift bin: magnitudes from 12, chi-squared from 0.  [far]: the chi-squared given to galaxies that are not
    used, exp(max(lnchisqbins)) + 100 = exp(5.8) + 100 (477). *)
Definition mag0 : Q := 12.
Definition chisq_table (far chisq_max csize limmag msize zl : Q) (areas : list Q) (pix : list (list gal)) : res (list (list Q)) :=
  do cut <- mag_cut mag0 limmag msize zl;
  let ngal := List.length (List.concat pix) in
  let '(mags, chis) := fill mag0 cut ngal 0 pix (repeat 0%Q ngal) (repeat far ngal) in
  table 0 chisq_max csize mag0 limmag msize areas
    (fun m => Qle_bool mag0 m && Qlt_bool m limmag) (fun c => c) chis mags.

(** a galaxy with its photometric redshift *)
Record zgal := mkZG { zg_mag : Q; zg_zred : Q; zg_chi : Q }.
(** 660-690: the slots of a pixel are filled from its start with the galaxies below [maxchisq]; the others keep zred -1 *)
Fixpoint zfill (maxchisq : Q) (ngal ctr : nat) (pix : list (list zgal)) (mags zreds : list Q) : list Q * list Q :=
  match pix with
  | [] => (mags, zreds)
  | gals :: t =>
      if Nat.ltb ctr ngal then
        if Nat.eqb (List.length gals) 0 then zfill maxchisq ngal ctr t mags zreds
        else
          let use := filter (fun g => Qlt_bool (zg_chi g) maxchisq) gals in
          zfill maxchisq ngal (ctr + List.length gals) t
            (if Nat.ltb 0 (List.length use) then put mags ctr (map zg_mag use) else mags)
            (if Nat.ltb 0 (List.length use) then put zreds ctr (map zg_zred use) else zreds)
      else (mags, zreds)
  end.
(** 613-710; zredrange is given *)
Definition zred_table (zlo zhi zsize limmag msize maxchisq : Q) (areas : list Q) (pix : list (list zgal)) : res (list (list Q)) :=
  let ngal := List.length (List.concat pix) in
  let '(mags, zreds) := zfill maxchisq ngal 0 pix (repeat 0%Q ngal) (repeat (-(1))%Q ngal) in
  table zlo zhi zsize mag0 limmag msize areas
    (fun m => Qlt_bool mag0 m && Qlt_bool m limmag) (fun c => Qmax2 (1#10) c) zreds mags.

(** The background file, by extension: 309-314 and 417 (606-611 and 739).  A file is replaced when clobber is set
    (fitsio.write); otherwise an extension is added.  [None]: no file. *)
Inductive ext := CHISQBKG | ZREDBKG.
Definition ext_eqb (a b : ext) : bool := match a, b with CHISQBKG, CHISQBKG | ZREDBKG, ZREDBKG => true | _, _ => false end.
Definition bkgfile : Type := option (list (ext * list (list Q))).
Definition store (e : ext) (clobber : bool) (t : res (list (list Q))) (f : bkgfile) : res bkgfile :=
  match f with
  | Some l => if negb clobber && existsb (fun x => ext_eqb (fst x) e) l then Ok f
              else do v <- t; Ok (Some (if clobber then [(e, v)] else l ++ [(e, v)]))
  | None => do v <- t; Ok (Some [(e, v)])
  end.

(** np.interp(x, xp, fp): constant outside of the nodes, linear between (library function, for increasing xp) *)
Fixpoint interp_from (x0 f0 : Q) (xf : list (Q * Q)) (x : Q) : Q :=
  match xf with
  | [] => f0
  | (x1, f1) :: t => if Qle_bool x x1 then (f0 + (f1 - f0) * (x - x0) / (x1 - x0))%Q else interp_from x1 f1 t x
  end.
Definition np_interp (x : Q) (xp fp : list Q) : res Q :=
  match combine xp fp with
  | [] => Err ValueError
  | (x0, f0) :: t => Ok (if Qle_bool x x0 then f0 else interp_from x0 f0 t x)
  end.
(** np.where(v < 0, 0, v) *)
Definition pos0 (v : Q) : Q := if Qlt_bool v 0 then 0%Q else v.

(** 41-128: a stored table and its bins; [s_sig m c z] *)
Record stored := mkSt { s_mag : list Q; s_chi : list Q; s_z : list Q; s_sig : nat -> nat -> nat -> Q }.
Fixpoint all_ok {A B} (f : A -> res B) (l : list A) : res (list B) :=
  match l with [] => Ok [] | x :: t => do y <- f x; do ys <- all_ok f t; Ok (y :: ys) end.
Definition ids {A} (l : list A) : list nat := seq 0 (List.length l).
(** 76-81: along the magnitude, for one stored (chisq, z) *)
Definition fine_mag (s : stored) (mag : Q) (c z : nat) : res Q :=
  do v <- np_interp mag (s_mag s) (map (fun m => s_sig s m c z) (ids (s_mag s))); Ok (pos0 v).
(** 92-95: along the chi-squared, for one stored z *)
Definition fine_chi (s : stored) (mag chi : Q) (z : nat) : res Q :=
  do fp <- all_ok (fun c => fine_mag s mag c z) (ids (s_chi s));
  do v <- np_interp chi (s_chi s) fp; Ok (pos0 v).
(** 106-109: along the redshift: the value of sigma_g at the fine bins (mag, chi, z) *)
Definition fine_z (s : stored) (mag chi z : Q) : res Q :=
  do fp <- all_ok (fun i => fine_chi s mag chi i) (ids (s_z s));
  do v <- np_interp z (s_z s) fp; Ok (pos0 v).
(** 54-59, 86, 99: the fine bins *)
Definition fine_chis (lo hi : Q) : list Q := arange lo hi (1#2).
(** 116-118: n[mag, z] = sum over the fine chi-squared bins times their size *)
Definition fine_n (s : stored) (chis : list Q) (mag z : Q) : res Q :=
  do vs <- all_ok (fun c => fine_z s mag c z) chis; Ok (Qsum vs * (1#2))%Q.

(** 185-232: the zred table [zs_sig m z] *)
Record zstored := mkZs { zs_mag : list Q; zs_z : list Q; zs_sig : nat -> nat -> Q }.
(** 210: np.min(obkg.sigma_g) *)
Definition zs_all (s : zstored) : list Q := flat_map (fun m => map (fun z => zs_sig s m z) (ids (zs_z s))) (ids (zs_mag s)).
Definition zfloor (s : zstored) : res Q := match zs_all s with [] => Err ValueError | x :: t => Ok (fold_left Qmin2 t x) end.
(** 212-213, 223-224 *)
Definition zfine_mag (s : zstored) (floor mag : Q) (z : nat) : res Q :=
  do v <- interpol (map (fun m => zs_sig s m z) (ids (zs_mag s))) (zs_mag s) mag; Ok (Qmax2 v floor).
Definition zfine (s : zstored) (mag z : Q) : res Q :=
  do floor <- zfloor s;
  do fp <- all_ok (fun i => zfine_mag s floor mag i) (ids (zs_z s));
  do v <- interpol fp (zs_z s) z; Ok (Qmax2 v floor).
