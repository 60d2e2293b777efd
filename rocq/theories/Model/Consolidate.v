(** Consolidation of per-pixel catalogs: redmapper_run.py:248-367 and pipeline/redmapperconsolidatetask.py:64-265. *)
From Coq Require Import QArith.
From Verif.Base Require Import Py Sort.
From Verif.Model Require Import Richness.
Local Open Scope nat_scope.

(** Catalog rows: the columns read here; all others are [c_data], [m_data].  Position is opaque. *)
Record cluster := mkClus { c_id : Z; c_pos : Z; c_maskfrac : Q; c_lambda : Q; c_scale : Q; c_like : Q; c_z : Q; c_data : Z }.
Record member := mkMem { m_id : Z; m_data : Z }.
Definition cwith (c : cluster) (i : Z) : cluster :=
  mkClus i (c_pos c) (c_maskfrac c) (c_lambda c) (c_scale c) (c_like c) (c_z c) (c_data c).
Definition mwith (m : member) (i : Z) : member := mkMem i (m_data m).
(** One input file: pixel number, catalog, members. *)
Record pfile := mkFile { f_hpix : Z; f_cat : list cluster; f_mem : list member }.
(** [pixel]: healpix pixel of a position (all 0 when nside is 0, lines 303-307). *)
Record pcut := mkCut { q_pixel : Z -> Z; q_maxmask : Q; q_minlambda : Q; q_scaled : bool }.

(** redmapper_run.py:309-311 ([q_scaled]); redmapperconsolidatetask.py:172-174 (not scaled) *)
Definition in_pixel_cut (q : pcut) (hpix : Z) (c : cluster) : bool :=
  (Z.eqb (q_pixel q (c_pos c)) hpix && Qlt_bool (c_maskfrac c) (q_maxmask q) &&
   Qlt_bool (q_minlambda q) (if q_scaled q then c_lambda c / c_scale c else c_lambda c))%bool.

Fixpoint seqZ (start : Z) (n : nat) : list Z := match n with O => [] | S k => start :: seqZ (start + 1) k end.
(** assigning to the id column *)
Definition set_cids (cat : list cluster) (ids : list Z) : list cluster := map (fun x => cwith (fst x) (snd x)) (combine cat ids).
Definition set_mids (mem : list member) (ids : list Z) : list member := map (fun x => mwith (fst x) (snd x)) (combine mem ids).
(** [mem.mem_match_id[b] = new[a]] where a, b = match(old, mem.mem_match_id) *)
Definition rematch (old new : list Z) (mem : list member) : res (list member * list nat) :=
  do ab <- eu_match old (map m_id mem);
  do v <- np_take new (fst ab);
  Ok (set_mids mem (scatter (map m_id mem) (combine (snd ab) v)), snd ab).

(** A file after the cut and with temporary ids; [b_scale] are the scale values of the whole file (task, line 163). *)
Record block := mkBlock { b_cat : list cluster; b_mem : list member; b_scale : list Q }.
(** redmapper_run.py:299-344 (members=True, [start] = 1), redmapperconsolidatetask.py:121-191 ([start] = 0; without the
    matching to spectroscopic or true redshifts, which changes other columns) *)
Fixpoint merge (q : pcut) (start : Z) (fs : list pfile) : res (list block) :=
  match fs with
  | [] => Ok []
  | f :: rest =>
    let cat := filter (in_pixel_cut q (f_hpix f)) (f_cat f) in
    if Nat.eqb (List.length cat) 0 then merge q start rest else
    let new_ids := seqZ start (List.length cat) in
    do mb <- rematch (map c_id cat) new_ids (f_mem f);
    do mem <- np_take (fst mb) (snd mb);
    do t <- merge q (start + Z.of_nat (List.length cat)) rest;
    Ok (mkBlock (set_cids cat new_ids) mem (map c_scale (f_cat f)) :: t)
  end.

(** redmapper_run.py:285-367 with members=True and no usable previous output; catalog and members written.
    ubermem stays None if nothing survives: AttributeError at line 354. *)
Definition consolidate (asort : list Q -> list nat) (q : pcut) (fs : list pfile) : res (list cluster * list member) :=
  match fs with
  | [] => Err IndexError
  | _ =>
    do bs <- merge q 1 fs;
    let cat := concat (map b_cat bs) in
    match bs with
    | [] => Err AttributeError
    | _ =>
      let mem := concat (map b_mem bs) in
      do cat <- np_take cat (desc asort (map c_like cat));
      let new := seqZ 1 (List.length cat) in
      do mb <- rematch (map c_id cat) new mem;
      Ok (set_cids cat new, fst mb)
    end
  end.

(** ** The pipeline task, one richness cut and one volume limit *)
(** numpy division of two arrays *)
Definition np_div (a b : list Q) : res (list Q) :=
  if Nat.eqb (List.length a) (List.length b) then Ok (map (fun x => (fst x / snd x)%Q) (combine a b))
  else match a, b with
       | [x], _ => Ok (map (fun y => (x / y)%Q) b)
       | _, [y] => Ok (map (fun x => (x / y)%Q) a)
       | _, _ => Err ValueError
       end.
(** numpy & of two boolean arrays *)
Definition np_and (a b : list bool) : res (list bool) :=
  if Nat.eqb (List.length a) (List.length b) then Ok (map (fun x => (fst x && snd x)%bool) (combine a b))
  else match a, b with
       | [x], _ => Ok (map (fun y => (x && y)%bool) b)
       | _, [y] => Ok (map (fun x => (x && y)%bool) a)
       | _, _ => Err ValueError
       end.
(** Lines 163, 203-209: cat_use.  [zmax]: maximum redshift of the volume limit at a position. *)
Definition cat_use (sel : bool) (zmax : Z -> Q) (minlambda : Q) (b : block) : res (list nat) :=
  do r <- (if sel then np_div (map c_lambda (b_cat b)) (b_scale b) else Ok (map c_lambda (b_cat b)));
  do m <- np_and (map (fun c => Qlt_bool (c_z c) (zmax (c_pos c))) (b_cat b)) (map (fun x => Qlt_bool minlambda x) r);
  Ok (np_where (fun x : bool => x) m).
(** Lines 202-235 over the files: rows of the two output tables; None: not started.  The first table is written through
    catalog.py:143-151, which ignores the row indices of a one-row table. *)
Fixpoint select (sel : bool) (zmax : Z -> Q) (minlambda : Q) (bs : list block) (out : option (list cluster * list member))
  : res (option (list cluster * list member)) :=
  match bs with
  | [] => Ok out
  | b :: rest =>
    do use <- cat_use sel zmax minlambda b;
    if Nat.eqb (List.length use) 0 then select sel zmax minlambda rest out else
    do ids <- np_take (map c_id (b_cat b)) use;
    do ab <- eu_match ids (map m_id (b_mem b));
    match out with
    | None =>
      do cs <- (if Nat.eqb (List.length (b_cat b)) 1 then Ok (b_cat b) else np_take (b_cat b) use);
      do ms <- (if Nat.eqb (List.length (b_mem b)) 1 then Ok (b_mem b) else np_take (b_mem b) (snd ab));
      select sel zmax minlambda rest (Some (cs, ms))
    | Some (cs0, ms0) =>
      do cs <- np_take (b_cat b) use;
      do ms <- np_take (b_mem b) (snd ab);
      select sel zmax minlambda rest (Some (cs0 ++ cs, ms0 ++ ms))
    end
  end.
(** Lines 255-262 for the catalog table *)
Definition rematch_cat (old new : list Z) (cat : list cluster) : res (list cluster) :=
  do ab <- eu_match old (map c_id cat);
  do v <- np_take new (fst ab);
  Ok (set_cids cat (scatter (map c_id cat) (combine (snd ab) v))).
(** The task for one cut and one mask ([c_like] is lnlamlike here, line 195). *)
Definition consolidate_task (asort : list Q -> list nat) (q : pcut) (sel : bool) (zmax : Z -> Q) (minlambda : Q) (fs : list pfile)
  : res (list cluster * list member) :=
  match fs with
  | [] => Err IndexError                                              (* catfiles[0], line 83 *)
  | _ =>
    do bs <- merge q 0 fs;
    do out <- select sel zmax minlambda bs None;
    let all := concat (map b_cat bs) in
    do sorted <- np_take (map c_id all) (desc asort (map c_like all));
    let new := seqZ 1 (List.length all) in
    match out with
    | None => Err KeyError                                            (* line 249 *)
    | Some (cs, ms) =>
      do cs' <- rematch_cat sorted new cs;
      do mb <- rematch sorted new ms;
      Ok (cs', fst mb)
    end
  end.
