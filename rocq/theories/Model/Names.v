(** Model of the file names the code builds and takes apart.  A string is the list of its characters. *)
From Coq Require Import Ascii String.
From Verif.Base Require Import Py.
From Verif.Model Require Import Chunks.
Local Open Scope nat_scope.
Local Open Scope list_scope.

Definition str := list ascii.
Definition s_ (x : string) : str := list_ascii_of_string x.
Definition char_in (cs : str) (c : ascii) : bool := existsb (Ascii.eqb c) cs.

(** str.rstrip(chars) *)
Fixpoint drop_while (p : ascii -> bool) (s : str) : str :=
  match s with [] => [] | c :: t => if p c then drop_while p t else s end.
Definition rstrip (cs s : str) : str := rev (drop_while (char_in cs) (rev s)).
(** utilities.py:1094 *)
Definition members_file (catfile : str) : str := rstrip (s_ ".fit") catfile ++ s_ "_members.fit".

(** ** decimal numbers *)
Definition digit (d : Z) : ascii := ascii_of_nat (48 + Z.to_nat d).
Definition is_digit (c : ascii) : bool := (48 <=? nat_of_ascii c) && (nat_of_ascii c <=? 57).
Definition digit_val (c : ascii) : Z := Z.of_nat (nat_of_ascii c - 48).
(** the last [n] decimal digits *)
Fixpoint digits (n : nat) (p : Z) : str :=
  match n with O => [] | S k => digits k (p / 10) ++ [digit (p mod 10)] end.
(** number of digits *)
Fixpoint ndigits (fuel : nat) (p : Z) : nat :=
  match fuel with O => 1 | S f => if (p <? 10)%Z then 1 else S (ndigits f (p / 10)) end.
(** '%0wd' % p for p >= 0 *)
Definition fmt (w : nat) (p : Z) : str := digits (Nat.max w (ndigits (Z.to_nat p) p)) p.
(** int(s) for a string of digits *)
Definition parse (s : str) : Z := fold_left (fun a c => 10 * a + digit_val c)%Z s 0%Z.

(** ** galaxy.py:806-818: the pixel of a pixel file, from its full path *)
(** the first [n] characters if they are digits *)
Fixpoint take_digits (n : nat) (s : str) : option str :=
  match n, s with
  | O, _ => Some []
  | S k, c :: t => if is_digit c then match take_digits k t with Some r => Some (c :: r) | None => None end else None
  | S _, [] => None
  end.
(** re.search(r'_(\d{7})', s), group 1 *)
Fixpoint search7 (s : str) : option str :=
  match s with
  | [] => None
  | c :: t => match (if Ascii.eqb c "_"%char then take_digits 7 t else None) with
              | Some r => Some r
              | None => search7 t
              end
  end.
(** galaxy.py:739,808: name of a pixel file *)
Definition pixel_file (outpath outbase : str) (pix : Z) : str := outpath ++ s_ "/" ++ outbase ++ s_ "_" ++ fmt 7 pix ++ s_ ".fit".
(** glob '<outpath>/<outbase>_???????.fit' (path without glob metacharacters) *)
Fixpoint prefix_of (p s : str) : option str :=
  match p, s with
  | [], _ => Some s
  | a :: p', b :: s' => if Ascii.eqb a b then prefix_of p' s' else None
  | _ :: _, [] => None
  end.
Fixpoint str_eqb (a b : str) : bool :=
  match a, b with [], [] => true | x :: a', y :: b' => Ascii.eqb x y && str_eqb a' b' | _, _ => false end.
Definition glob7 (outpath outbase f : str) : bool :=
  match prefix_of (outpath ++ s_ "/" ++ outbase ++ s_ "_") f with
  | Some rest => str_eqb (skipn 7 rest) (s_ ".fit") && negb (char_in (firstn 7 rest) "/"%char)
  | None => false
  end.
(** galaxy.py:804-818 over the (name, rows) of the files, in the order given; [npix]: size of the table.
    The order of names is glob's, sorted: a parameter of the caller. *)
Definition set_count (npix : nat) (counts : list nat) (f : str) (rows : nat) : res (list nat) :=
  match search7 f with
  | None => Err RuntimeError
  | Some d => let p := Z.to_nat (parse d) in
      if p <? npix then Ok (firstn p counts ++ [rows] ++ skipn (S p) counts) else Err IndexError
  end.
Definition recount (npix : nat) (outpath outbase : str) (files : list (str * nat)) : res (list nat) :=
  fold_left (fun r fr => do c <- r; set_count npix c (fst fr) (snd fr))
    (filter (fun fr => glob7 outpath outbase (fst fr)) files) (Ok (repeat 0 npix)).

(** ** bin/redmapper_batch.py:162-167,213-216: the job file.  [jobs]: what stands between '<jobname>_'
    and '.job' in the names of the existing job files. *)
Definition job_index (jobs : list str) : str :=
  fmt 1 (Z.of_nat (length (filter (fun s => Nat.eqb (length s) 1) jobs)) + 1).
(** bin/redmapper_batch.py:147-152: the pixels of the run; [centre]: position of the centre of a pixel
    of the catalog, [at_pix]: pixel of the run at a position *)
Definition run_pixels {P} (centre : Z -> P) (at_pix : P -> Z) (hpix : list Z) : list Z :=
  uniqueZ (map (fun p => at_pix (centre p)) hpix).
(** bin/redmapper_batch.py:218-300: the pixels given to the jobs, by batch system.  The job file has
    been opened for writing before any of the errors. *)
Inductive batch_system := LSF | PBS | ParslLocal | ParslSlurm | ParslOther | Slurm | OtherBatch.
Definition job_pixels (b : batch_system) (pixels : list Z) : res (list Z) :=
  match b with
  | LSF => (* jobs 1..n, job i works on pixarr[i-1] *)
      np_take pixels (map (fun i => i - 1) (seq 1 (length pixels)))
  | PBS => Err NameError (* index_string is not set *)
  | ParslLocal | ParslSlurm => Ok pixels
  | Slurm => Err NotImplementedError
  | ParslOther | OtherBatch => Err RuntimeError
  end.
(** bin/redmapper_batch.py:105-143 *)
Definition jobtype (runmode : Z) : res str :=
  if (runmode =? 0)%Z then Ok (s_ "run") else if (runmode =? 1)%Z then Ok (s_ "zred") else if (runmode =? 2)%Z then Ok (s_ "runcat")
  else if (runmode =? 3)%Z then Ok (s_ "zmask") else if (runmode =? 4)%Z then Ok (s_ "zscan") else Err RuntimeError.

(** ** names of the run configuration *)
(** s.replace(pat, rep): non-overlapping, left to right *)
Fixpoint replace_from (pat rep : str) (skip : nat) (s : str) : str :=
  match s with
  | [] => []
  | c :: t =>
    match skip with
    | S k => replace_from pat rep k t
    | O => match prefix_of pat s with
           | Some _ => rep ++ replace_from pat rep (length pat - 1) t
           | None => c :: replace_from pat rep 0 t
           end
    end
  end.
Definition replace_all (pat rep s : str) : str := replace_from pat rep 0 s.
(** pat in s *)
Fixpoint contains (pat s : str) : bool :=
  match prefix_of pat s with
  | Some _ => true
  | None => match s with [] => false | _ :: t => contains pat t end
  end.
(** s.split(pat)[0] *)
Fixpoint before_first (pat s : str) : str :=
  match prefix_of pat s with
  | Some _ => []
  | None => match s with [] => [] | c :: t => c :: before_first pat t end
  end.
(** calibration/calibrate.py:202-209: directory of the run, next to that of the calibration *)
Definition run_dir (cal : str) : str :=
  if str_eqb cal (s_ "cal") then s_ "run"
  else if contains (s_ "cal_") cal then replace_all (s_ "cal_") (s_ "run_") cal
  else if contains (s_ "_cal") cal then replace_all (s_ "_cal") (s_ "_run") cal
  else cal ++ s_ "_run".
(** calibration/calibrate.py:226-229 *)
Definition run_outbase (cal : str) : str :=
  if contains (s_ "_cal") cal then replace_all (s_ "_cal") (s_ "_run") cal else cal ++ s_ "_run".
(** redmagic/redmagic_calibrate.py:698-702 *)
Definition redmagic_runfile (cfg : str) : str :=
  let r := replace_all (s_ "cal") (s_ "run") cfg in
  if str_eqb r cfg then before_first (s_ ".y") cfg ++ s_ "_run.yaml" else r.
(** os.path.dirname of a name with slashes *)
Definition dirname (s : str) : str := rev (tl (drop_while (fun c => negb (Ascii.eqb c "/"%char)) (rev s))).
