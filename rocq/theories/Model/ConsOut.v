(** The outputs of the consolidation of a run: pipeline/redmapperconsolidatetask.py:27-62 (which cuts and volume limits), 112-115 and
    198-235 (the tables of every richness cut and volume limit), 237-265 (the final numbers), without the plots.  The names are those of
    configuration.py:839-878 without directory, outbase and version, which are the same for all.  Catalogue and members go to two
    files with the same start of the name, one entry here.  Cuts and volume limits are rational numbers, 0 or above.  Simplified: all files
    are read and matched (121-191) before the first output is written, so an error there leaves nothing behind. *)
From Coq Require Import Ascii String QArith Qround.
From Verif.Base Require Import Py Sort.
From Verif.Model Require Import Names Consolidate.
From Coq Require Import List. Import ListNotations.
Local Open Scope list_scope.

(** 51-62; None: not given.  An empty list of volume limits counts as not given *)
Definition cuts_used (given : option (list Q)) (configured : list Q) : list Q := match given with None => configured | Some l => l end.
Definition vlims_used (given configured : list Q) : list Q := match given with [] => configured | _ => given end.
(** 213-216: %02d of a float is its integer part *)
Definition extraname (minl : Q) (vlim : option Q) : str :=
  s_ "lgt" ++ fmt 2 (Qfloor minl) ++ match vlim with None => [] | Some v => s_ "_vl" ++ fmt 2 (Qfloor (v * 10)) end.

(** an output: cut, mask (the redshift limit at a position, 203) and name *)
Record output := mkOut { o_minl : Q; o_zmax : Z -> Q; o_name : str }.
(** 102-110, 198-202: the cuts and, within each, the masks.  [vmask]: VolumeLimitMask for a limit; [fixed]: VolumeLimitMaskFixed *)
Definition outputs (vmask : Q -> Z -> Q) (fixed : Z -> Q) (cuts vlims : list Q) : list output :=
  flat_map (fun l => match vlims with
                     | [] => [mkOut l fixed (extraname l None)]
                     | _ => map (fun v => mkOut l (vmask v) (extraname l (Some v))) vlims
                     end) cuts.
Definition tables := (list cluster * list member)%type.
Definition disk := str -> option tables.
Definition put (d : disk) (n : str) (t : tables) : disk := fun m => if str_eqb m n then Some t else d m.
(** 203-235 for one output and one file; [started]: started[i, j], the name is in the dictionary then *)
Definition out_step (sel : bool) (b : block) (o : output) (started : bool) (d : disk) : res (bool * disk) :=
  do use <- cat_use sel (o_zmax o) (o_minl o) b;
  if Nat.eqb (List.length use) 0 then Ok (started, d) else
  do ids <- np_take (map c_id (b_cat b)) use;
  do ab <- eu_match ids (map m_id (b_mem b));
  if started then
    do cs <- np_take (b_cat b) use;
    do ms <- np_take (b_mem b) (snd ab);
    match d (o_name o) with
    | None => Err OSError
    | Some (cs0, ms0) => Ok (true, put d (o_name o) (cs0 ++ cs, ms0 ++ ms))
    end
  else
    do cs <- (if Nat.eqb (List.length (b_cat b)) 1 then Ok (b_cat b) else np_take (b_cat b) use);
    do ms <- (if Nat.eqb (List.length (b_mem b)) 1 then Ok (b_mem b) else np_take (b_mem b) (snd ab));
    Ok (true, put d (o_name o) (cs, ms)).
(** 198-235: all outputs, for one file; an output comes with its started flag *)
Fixpoint file_step (sel : bool) (b : block) (os : list (output * bool)) (d : disk) : disk * res (list (output * bool)) :=
  match os with
  | [] => (d, Ok [])
  | (o, st) :: t =>
    match out_step sel b o st d with
    | Err e => (d, Err e)
    | Ok (st', d') => match file_step sel b t d' with
                      | (d2, Ok t') => (d2, Ok ((o, st') :: t'))
                      | (d2, Err e) => (d2, Err e)
                      end
    end
  end.
(** 121-235 *)
Fixpoint all_files (sel : bool) (bs : list block) (os : list (output * bool)) (d : disk) : disk * res (list (output * bool)) :=
  match bs with
  | [] => (d, Ok os)
  | b :: t => match file_step sel b os d with
              | (d', Ok os') => all_files sel t os' d'
              | (d', Err e) => (d', Err e)
              end
  end.
(** 247-265 *)
Fixpoint renumber (sorted new : list Z) (os : list (output * bool)) (d : disk) : disk * res unit :=
  match os with
  | [] => (d, Ok tt)
  | (o, st) :: t =>
    if st then
      match d (o_name o) with
      | None => (d, Err OSError)
      | Some (cs, ms) =>
        match (do cs' <- rematch_cat sorted new cs; do mb <- rematch sorted new ms; Ok (cs', fst mb)) with
        | Err e => (d, Err e)
        | Ok r => renumber sorted new t (put d (o_name o) r)
        end
      end
    else (d, Err KeyError)                                            (* 249 *)
  end.
(** 64-265 *)
Definition consolidate_all (asort : list Q -> list nat) (q : pcut) (sel : bool) (os : list output) (fs : list pfile) (d : disk) : disk * res unit :=
  match fs with
  | [] => (d, Err IndexError)
  | _ =>
    match merge q 0 fs with
    | Err e => (d, Err e)
    | Ok bs =>
      match all_files sel bs (map (fun o => (o, false)) os) d with
      | (d', Err e) => (d', Err e)
      | (d', Ok os') =>
        let all := concat (map b_cat bs) in
        match np_take (map c_id all) (desc asort (map c_like all)) with
        | Err e => (d', Err e)
        | Ok sorted => renumber sorted (seqZ 1 (List.length all)) os' d'
        end
      end
    end
  end.
