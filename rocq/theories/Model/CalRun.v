(** The calibration as a sequence of steps that are skipped when their file exists: calibrate.py:49-160 (the
    calibrator), 297-540 (an iteration), 562-630 (the final iteration).  File names are structured values instead
    of strings; what a step computes is a parameter. *)
From Coq Require Import QArith.
From Verif.Base Require Import Py.
Local Open Scope nat_scope.

Inductive kind := Pars | CalZreds | Zreds | BkgChi | BkgZred | SeedZreds | Seeds | Final | Members | Like | SubLike
  | RandFinal | RandMembers | RandsatFinal | RandsatMembers | Wcen | Zlambda | Plot | Zmem.
(** The files.  [It i k] has the base name outbase_iter<i>, [ItB i k] outbase_iter<i>b.  The two extensions of the
    background file (lines 351-366) count as two files. *)
Inductive fname := RedGal | RedModel | BkgColor | MaskGals | ColorMem | ColorCat | SeedTrain | CutSeeds | FullSeeds
  | It (i : nat) (k : kind) | ItB (i : nat) (k : kind).
Definition kind_eq_dec (a b : kind) : {a = b} + {a <> b}.
Proof. decide equality. Defined.
Definition fname_eq_dec (a b : fname) : {a = b} + {a <> b}.
Proof. decide equality; (apply kind_eq_dec || apply Nat.eq_dec). Defined.
Definition disk := fname -> option Z.
Definition put (d : disk) (f : fname) (v : Z) : disk := fun g => if fname_eq_dec g f then Some v else d g.

Inductive center := Configured | FirstPass | WcenZred | Random | RandomSatellite.
Inductive zlfile := NoZl | UserZl | ZlOf (f : fname).
(** The configuration values that change during the calibration.  [c_saved] is the local variable of line 379;
    [c_wcen] names the file the centering values were read from (line 491); [c_base] the current output base (and
    with it the par, zred and background files). *)
Record cfg := mk_cfg { c_base : option (nat * bool); c_center : center; c_saved : center; c_cat : option fname;
  c_zl : zlfile; c_seed : option fname; c_zmem : option fname; c_wcen : option fname }.
Definition set_base c b := mk_cfg b (c_center c) (c_saved c) (c_cat c) (c_zl c) (c_seed c) (c_zmem c) (c_wcen c).
Definition set_center c x := mk_cfg (c_base c) x (c_saved c) (c_cat c) (c_zl c) (c_seed c) (c_zmem c) (c_wcen c).
Definition set_saved c x := mk_cfg (c_base c) (c_center c) x (c_cat c) (c_zl c) (c_seed c) (c_zmem c) (c_wcen c).
Definition set_cat c x := mk_cfg (c_base c) (c_center c) (c_saved c) x (c_zl c) (c_seed c) (c_zmem c) (c_wcen c).
Definition set_zl c x := mk_cfg (c_base c) (c_center c) (c_saved c) (c_cat c) x (c_seed c) (c_zmem c) (c_wcen c).
Definition set_seed c x := mk_cfg (c_base c) (c_center c) (c_saved c) (c_cat c) (c_zl c) x (c_zmem c) (c_wcen c).
Definition set_zmem c x := mk_cfg (c_base c) (c_center c) (c_saved c) (c_cat c) (c_zl c) (c_seed c) x (c_wcen c).
Definition set_wcen c x := mk_cfg (c_base c) (c_center c) (c_saved c) (c_cat c) (c_zl c) (c_seed c) (c_zmem c) x.

(** One file written by a step: its name, whether an existing file is replaced (fitsio.write with clobber=False adds an
    extension after the existing one, and readers take the first) and a number that tells two contents written to the
    same file by the same step apart. *)
Record write := mk_write { w_file : fname; w_clobber : bool; w_phase : nat }.
Definition new f := mk_write f false 0.
Definition over f := mk_write f true 0.
(** A step: what is set before the test for its file, the file tested, what is set only when the step is carried out,
    the files written in this order, what is set afterwards in any case, and the configuration it looks at. *)
Record step := mk_step { st_pre : cfg -> cfg; st_mark : fname; st_only : cfg -> cfg; st_writes : list write;
  st_post : cfg -> cfg; st_view : cfg -> cfg }.
Definition keep (c : cfg) : cfg := c.
(** what is computed depends on the configuration the step looks at and on the files that are there when it starts *)
Definition compute := fname -> nat -> cfg -> disk -> Z.
Definition present (d : disk) (f : fname) : bool := match d f with Some _ => true | None => false end.

(** nobody but line 378/478 looks at the saved value *)
Definition all (c : cfg) : cfg := set_saved c Configured.
(** centeringcal.py never uses zlambdafile *)
Definition but_zl (c : cfg) : cfg := set_zl (all c) NoZl.

(** calibrate.py:54-107 *)
Definition first_steps : list step :=
  [ mk_step keep RedGal keep [over RedGal; over RedModel] keep all;               (* selectspecred.py:216, 230 *)
    mk_step keep BkgColor keep [over BkgColor] keep all;
    mk_step keep MaskGals keep [over MaskGals] keep all;
    mk_step (fun c => set_zmem c (Some ColorMem)) ColorMem keep [new ColorMem; new ColorCat] keep all;   (* run_colormem.py:188-191 *)
    mk_step (fun c => set_seed c (Some SeedTrain)) SeedTrain keep [new SeedTrain] keep all ].
(** calibrate.py:313-540 and 113-144 *)
Definition iteration (i : nat) : list step :=
  [ mk_step (fun c => set_base c (Some (i, false))) (It i Pars) keep
      [mk_write (It i Pars) false 0; mk_write (It i Pars) true 1; new (It i CalZreds)] keep all;          (* redsequencecal.py:198, 211, 219 *)
    mk_step keep (It i Zreds) keep [over (It i Zreds)] keep all;
    mk_step keep (It i BkgChi) keep [new (It i BkgChi)] keep all;
    mk_step keep (It i BkgZred) keep [new (It i BkgZred)] keep all;
    mk_step (fun c => set_center (set_saved c (c_center c)) (if i =? 1 then FirstPass else WcenZred)) (It i Seeds) keep
      [new (It i SeedZreds); new (It i Seeds)] keep all;
    mk_step keep (It i Final) (fun c => set_zl c NoZl)
      [over (It i Final); over (It i Members); over (It i Like)] keep all ] ++           (* redmapper_run.py:138-143, 362-365 *)
  (if i =? 1 then
    [ mk_step keep (It i SubLike) keep [new (It i SubLike)] keep all;
      mk_step keep (It i RandFinal) (fun c => set_center (set_cat c (Some (It i SubLike))) Random)
        [over (It i RandFinal); over (It i RandMembers)] keep all;
      mk_step keep (It i RandsatFinal) (fun c => set_center (set_cat c (Some (It i SubLike))) RandomSatellite)
        [over (It i RandsatFinal); over (It i RandsatMembers)] keep all ] else []) ++
  [ mk_step (fun c => set_cat (set_center c (c_saved c)) (Some (It i Final))) (It i Wcen) keep [over (It i Wcen)]
      (fun c => set_wcen c (Some (It i Wcen))) but_zl;
    mk_step (fun c => set_zl c (ZlOf (It i Zlambda))) (It i Zlambda) keep [new (It i Zlambda)] keep all;
    mk_step keep (It i Plot) keep [over (It i Plot)] keep all;
    mk_step (fun c => set_zmem c (Some (It i Zmem))) (It i Zmem) keep [new (It i Zmem)] (fun c => set_base c None) all ] ++
  (if i =? 1 then [ mk_step keep CutSeeds keep [new CutSeeds] (fun c => set_seed c (Some CutSeeds)) all ] else []).
(** calibrate.py:146-160, 575-630 *)
Definition last_steps (n : nat) : list step :=
  [ mk_step (fun c => set_seed c (Some FullSeeds)) FullSeeds keep [new FullSeeds] keep all;
    mk_step (fun c => set_base c (Some (n, true))) (ItB n Seeds) keep [new (ItB n SeedZreds); new (ItB n Seeds)] keep all;
    mk_step keep (ItB n Final) keep [over (ItB n Final); over (ItB n Members)] keep all;
    mk_step (fun c => set_cat c (Some (ItB n Final))) (ItB n Plot) keep [over (ItB n Plot)] keep all ].
Definition calibration (n : nat) : list step := first_steps ++ flat_map iteration (seq 1 n) ++ last_steps n.

Section Run.
Variable gen : compute.
(** the first [j] writes of a step; all contents come from the disk before the step *)
Definition put_write (c : cfg) (d0 : disk) (d : disk) (w : write) : disk :=
  if present d (w_file w) && negb (w_clobber w) then d else put d (w_file w) (gen (w_file w) (w_phase w) c d0).
Definition put_writes (c : cfg) (d0 : disk) (ws : list write) : disk := fold_left (put_write c d0) ws d0.
Definition run_step (s : step) (cd : cfg * disk) : cfg * disk :=
  let c := st_pre s (fst cd) in
  if present (snd cd) (st_mark s) then (st_post s c, snd cd)
  else let c1 := st_only s c in (st_post s c1, put_writes (st_view s c1) (snd cd) (st_writes s)).
Definition run_steps (l : list step) (cd : cfg * disk) : cfg * disk := fold_left (fun x s => run_step s x) l cd.
(** killed after [m] steps and [j] writes of the step that follows *)
Definition killed (l : list step) (m j : nat) (c0 : cfg) (d : disk) : disk :=
  let '(c, d1) := run_steps (firstn m l) (c0, d) in
  match nth_error l m with
  | Some s => let c := st_pre s c in if present d1 (st_mark s) then d1 else put_writes (st_view s (st_only s c)) d1 (firstn j (st_writes s))
  | None => d1
  end.
(** started again: a new process with the configuration of the beginning *)
Definition finished (l : list step) (c0 : cfg) (d : disk) : disk := snd (run_steps l (c0, d)).
(** a history of executions killed between steps *)
Definition history (l : list step) (ms : list nat) (c0 : cfg) (d : disk) : disk := fold_left (fun d m => killed l m 0 c0 d) ms d.
End Run.
Definition start_cfg (zl : zlfile) : cfg := mk_cfg None Configured Configured None zl None None None.
Definition no_files : disk := fun _ => None.

(** *** The check of the corrected redshifts, calibrate.py:517-535 *)
(** [correct] is apply_correction; the name [cluster] of the loop is looked at after the loop *)
Definition spec_check {A} (correct : A -> Q) (cat : list A) : res unit :=
  match rev (map correct cat) with
  | [] => Err UnboundLocalError
  | z :: _ => if Qlt_bool z 0 then Err RuntimeError else Ok tt
  end.
