(** Model of redmapper/redmagic/redmagictask.py:39-172 [RunRedmagicTask.run] (without plots), with the pixels read by
    [GalaxyCatalog.from_galfile]. *)
From Verif.Base Require Import Py Fn.
From Verif.Model Require Import Galfile Ingest.
From Coq Require Import List. Import ListNotations.

Section Task.
Context {Gal Row Rnd : Type}.
(** The catalogs and files of random points on disk, by mode, and whether the log file is open. *)
Record tstate := mkT { t_cat : nat -> option (list Row); t_rand : nat -> option (list Rnd); t_open : bool }.
(** What the task uses: the log file (C163), whether the galaxy file is pixelized, the modes, the pixels of the galaxy table as
    they can be read (95-100), the selection (105; C50), the modes with a fixed mask (156), and the generator of random points
    (162-170; C34, C35) given mode, number and catalog. *)
Record tenv := mkTE { te_log : res unit; te_pix : bool; te_modes : list nat; te_read : list (res (list Gal));
  te_sel : nat -> list Gal -> res (list Row); te_fixed : nat -> bool; te_gen : nat -> nat -> list Row -> res (list Rnd) }.

Definition cats := nat -> option (list Row).
(** redmagictask.py:103-115: one pixel; [st] tells which modes have been started (by their place in the list) *)
Fixpoint spool_modes (e : tenv) (gals : list Gal) (jm : list (nat * nat)) (c : cats) (st : nat -> bool) : cats * (nat -> bool) * res unit :=
  match jm with
  | [] => (c, st, Ok tt)
  | (j, m) :: t =>
      match te_sel e m gals with
      | Err x => (c, st, Err x)
      | Ok rows =>
          if st j then
            match c m with
            | None => (c, st, Err OSError)
            | Some old => spool_modes e gals t (upd c m (Some (old ++ rows))) st
            end
          else spool_modes e gals t (upd c m (Some rows)) (upd st j true)
      end
  end.
(** redmagictask.py:94-115 *)
Fixpoint spool_pixels (e : tenv) (jm : list (nat * nat)) (ps : list (res (list Gal))) (c : cats) (st : nat -> bool) : cats * res unit :=
  match ps with
  | [] => (c, Ok tt)
  | Err x :: _ => (c, Err x)
  | Ok gals :: t =>
      match spool_modes e gals jm c st with
      | (c1, st1, Ok _) => spool_pixels e jm t c1 st1
      | (c1, _, Err x) => (c1, Err x)
      end
  end.
(** redmagictask.py:155-170; redmagic_randoms.py:67-68 *)
Fixpoint make_randoms (e : tenv) (clobber : bool) (n : option nat) (ms : list nat) (c : cats) (r : nat -> option (list Rnd))
  : (nat -> option (list Rnd)) * res unit :=
  match ms with
  | [] => (r, Ok tt)
  | m :: t =>
      if te_fixed e m then make_randoms e clobber n t c r
      else match c m with
      | None => (r, Err OSError)
      | Some gals =>
          let k := match n with None => List.length gals * 10 | Some k => k end in
          if negb clobber && (match r m with Some _ => true | None => false end) then (r, Err RuntimeError)
          else match te_gen e m k gals with
               | Err x => (r, Err x)
               | Ok pts => make_randoms e clobber n t c (upd r m (Some pts))
               end
      end
  end.
Definition exists_ {A} (o : option A) : bool := match o with Some _ => true | None => false end.
(** redmagictask.py:39-172 *)
Definition run_task (e : tenv) (clobber : bool) (n : option nat) (s : tstate) : tstate * res unit :=
  match te_log e with
  | Err x => (s, Err x)                                                                            (* 61 *)
  | Ok _ =>
    let s1 := mkT (t_cat s) (t_rand s) true in
    if negb (te_pix e) then (s1, Err ValueError)                                                   (* 66-67 *)
    else if existsb (fun m => exists_ (t_cat s m) && negb clobber) (te_modes e) then (s1, Err RuntimeError)   (* 79-83 *)
    else match spool_pixels e (combine (seq 0 (List.length (te_modes e))) (te_modes e)) (te_read e) (t_cat s) (fun _ => false) with
    | (c, Err x) => (mkT c (t_rand s) true, Err x)
    | (c, Ok _) =>
        if match n with Some 0 => true | _ => false end then (mkT c (t_rand s) true, Ok tt)       (* 150-152 *)
        else match make_randoms e clobber n (te_modes e) c (t_rand s) with
             | (r, Err x) => (mkT c r true, Err x)
             | (r, Ok _) => (mkT c r false, Ok tt)                                                 (* 172 *)
             end
    end
  end.
End Task.
Arguments tstate : clear implicits. Arguments tenv : clear implicits.

(** redmagictask.py:94-100: the pixels of the galaxy table, each read with its redshifts *)
Definition zpixel_args (nt : nat) (h : Z) : args := mkA nt [h] 0%Q true false (0, 0)%Q 0%Q.
Definition zpixels (npt : Z) (nt : nat) (tab : list entry) : list (res (list orow)) :=
  map (fun x => from_galfile (pixel_geo npt) nt tab (zpixel_args nt (ehpix x))) tab.
