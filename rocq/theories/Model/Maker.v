(** Model of redmapper/galaxy.py:549-1038 GalaxyCatalogMaker, serial mode
    (parallel=False), one process. *)
From Verif.Base Require Import Py Fn.

(** One input galaxy: its id, its position/photometry (opaque), and whether its columns pass the
    range checks of [_check_galaxies] (galaxy.py:944-994, abstracted to one bit per row). *)
Record gal := mkG { gid : Z; gdat : Z; gok : bool }.

(** Parameters of a maker.  [pixof] is healpix angle_to_pixel of the position, [inmask] is
    mask.compute_radmask, [order] is the order in which esutil's histogram lists the rows of one pixel
    (its internal argsort is not stable, so any permutation is allowed). *)
Record env := mkE {
  npix : nat;
  pixof : Z -> nat;
  inmask : Z -> bool;
  order : list gal -> list gal;
  genids : bool            (* generate_unique_ids *)
}.

(** State: the maker object and the directory. *)
Record st := mkS {
  files : nat -> option (list gal);      (* pixel file contents *)
  ngals : nat -> nat;                    (* self.ngals *)
  master : option (list (nat * nat));    (* master table: (hpix, ngals) rows *)
  finalized : bool
}.

(** A new maker in a directory that already contains [fs] (galaxy.py:683-687). *)
Definition new_maker (fs : nat -> option (list gal)) : st := mkS fs (fun _ => 0) None false.
Definition fresh : st := new_maker (fun _ => None).

(** galaxy.py:930-999 [_check_galaxies]. *)
Definition chunk_ok (e : env) (c : list gal) : bool :=
  forallb gok c && (genids e || nodupZ (map gid c)).

(** Rows of one pixel (galaxy.py:739-743). *)
Definition rows_of (e : env) (p : nat) (gals : list gal) : list gal :=
  order e (filter (fun g => Nat.eqb (pixof e (gdat g)) p) gals).

(** galaxy.py:742-778, serial branch, for the pixels in the list. *)
Fixpoint write_pixels (e : env) (s : st) (gals : list gal) (pixs : list nat) : st * res unit :=
  match pixs with
  | [] => (s, Ok tt)
  | p :: rest =>
      let rows := rows_of e p gals in
      let exists_ := match files s p with Some _ => true | None => false end in
      if Nat.eqb (ngals s p) 0 && exists_ then (s, Err RuntimeError)      (* 767-768 *)
      else
        let new := if Nat.eqb (ngals s p) 0 then Ok rows                    (* 770-772 *)
                   else match files s p with                                 (* 774-776 *)
                        | Some old => Ok (old ++ rows)
                        | None => Err IOError
                        end in
        match new with
        | Err x => (s, Err x)
        | Ok f =>
            write_pixels e (mkS (upd (files s) p (Some f))
                                (upd (ngals s) p (ngals s p + List.length rows))   (* 778 *)
                                (master s) (finalized s)) gals rest
        end
  end.

(** galaxy.py:717-778 [append_galaxies]. *)
Definition append_galaxies (e : env) (s : st) (c : list gal) : st * res unit :=
  if finalized s then (s, Err RuntimeError)
  else match master s with
  | Some _ => (s, Err RuntimeError)
  | None =>
      if negb (chunk_ok e c) then (s, Err RuntimeError)
      else
        let gals := filter (fun g => inmask e (gdat g)) c in
        let gdpix := filter (fun p => negb (Nat.eqb (List.length
                       (filter (fun g => Nat.eqb (pixof e (gdat g)) p) gals)) 0)) (seq 0 (npix e)) in
        write_pixels e s gals gdpix
  end.

(** A history of appends; the caller may catch exceptions and go on. *)
Fixpoint append_many (e : env) (s : st) (cs : list (list gal)) : st * list (res unit) :=
  match cs with
  | [] => (s, [])
  | c :: rest =>
      let '(s1, r) := append_galaxies e s c in
      let '(s2, rs) := append_many e s1 rest in
      (s2, r :: rs)
  end.

(** galaxy.py:820 and 855-861: the rows of the master table. *)
Definition master_rows (e : env) (s : st) : list (nat * nat) :=
  map (fun p => (p, ngals s p)) (filter (fun p => negb (Nat.eqb (ngals s p) 0)) (seq 0 (npix e))).

(** galaxy.py:901-906: write ids ctr, ctr+1, ... *)
Fixpoint renum (ctr : Z) (l : list gal) : list gal :=
  match l with
  | [] => []
  | g :: t => mkG ctr (gdat g) (gok g) :: renum (ctr + 1) t
  end.
(** galaxy.py:892-906 *)
Fixpoint gen_ids (fs : nat -> option (list gal)) (ctr : Z) (pixs : list nat)
  : res (nat -> option (list gal)) :=
  match pixs with
  | [] => Ok fs
  | p :: rest =>
      match fs p with
      | None => Err IOError
      | Some l => gen_ids (upd fs p (Some (renum ctr l))) (ctr + Z.of_nat (List.length l)) rest
      end
  end.
(** galaxy.py:907-919: collect the ids (ValueError if a file does not have ngals rows). *)
Fixpoint read_ids (fs : nat -> option (list gal)) (tab : list (nat * nat)) : res (list Z) :=
  match tab with
  | [] => Ok []
  | (p, n) :: rest =>
      match fs p with
      | None => Err IOError
      | Some l => if Nat.eqb (List.length l) n
                  then do r <- read_ids fs rest; Ok (map gid l ++ r)
                  else Err ValueError
      end
  end.

(** galaxy.py:780-928 [finalize_catalog], serial.  Note that the master table is written
    (line 889) before the ids are checked (921-922). *)
Definition finalize_catalog (e : env) (s : st) : st * res unit :=
  let tab := master_rows e s in
  let s1 := mkS (files s) (ngals s) (Some tab) (finalized s) in
  if genids e then
    match gen_ids (files s) 1 (map fst tab) with
    | Err x => (s1, Err x)
    | Ok fs => (mkS fs (ngals s) (Some tab) true, Ok tt)
    end
  else
    match read_ids (files s) tab with
    | Err x => (s1, Err x)
    | Ok ids => if nodupZ ids then (mkS (files s) (ngals s) (Some tab) true, Ok tt)
                else (s1, Err RuntimeError)
    end.

(** galaxy.py:699-715 [split_galaxies]. *)
Definition split_galaxies (e : env) (s : st) (c : list gal) : st * res unit :=
  if finalized s then (s, Err RuntimeError)
  else match master s with
  | Some _ => (s, Err RuntimeError)
  | None => let '(s1, r) := append_galaxies e s c in
            match r with Err x => (s1, Err x) | Ok _ => finalize_catalog e s1 end
  end.
