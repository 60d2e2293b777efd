(** Model of the job scripts of a batch run (bin/redmapper_batch.py, redmapper/parsl_templates.py), of the scripts the jobs start
    (bin/redmapper_*_pixel.py) and of bin/redmapper_run_many_pixels_same_node.py.  A string is the list of its characters. *)
From Coq Require Import Ascii String.
From Verif.Base Require Import Py.
From Verif.Model Require Import Galfile Names ParFile.
Local Open Scope nat_scope.
Local Open Scope list_scope.

(** ** text *)
(** str(z) *)
Definition show (z : Z) : str := if (z <? 0)%Z then "-"%char :: fmt 1 (- z) else fmt 1 z.
Inductive arg := AS (s : str) | AD (z : Z).
(** template % args.  Simplified: '%s', '%d' and '%%' only; any other character after '%' is ValueError, although Python knows a few
    more of them (flags, widths and other conversions). *)
Fixpoint percent (f : str) (args : list arg) : res str :=
  match f with
  | [] => match args with [] => Ok [] | _ => Err TypeError end
  | c :: t =>
    if Ascii.eqb c "%"%char then
      match t with
      | [] => Err ValueError
      | k :: t' =>
        if Ascii.eqb k "%"%char then do r <- percent t' args; Ok (k :: r)
        else if Ascii.eqb k "s"%char then
          match args with
          | [] => Err TypeError
          | AS s :: a => do r <- percent t' a; Ok (s ++ r)
          | AD z :: a => do r <- percent t' a; Ok (show z ++ r)
          end
        else if Ascii.eqb k "d"%char then
          match args with
          | AD z :: a => do r <- percent t' a; Ok (show z ++ r)
          | _ => Err TypeError
          end
        else Err ValueError
      end
    else do r <- percent t args; Ok (c :: r)
  end.
(** template.format(pixel=v): [name] is the text since an open brace.  Simplified: what stands in braces is the name of an argument;
    conversions and indices are not told apart from unknown names. *)
Fixpoint braces (v : str) (name : option str) (f : str) : res str :=
  match f with
  | [] => match name with None => Ok [] | Some _ => Err ValueError end
  | c :: t =>
    match name with
    | Some n => if Ascii.eqb c "}"%char then (if str_eqb n (s_ "pixel") then do r <- braces v None t; Ok (v ++ r) else Err KeyError)
                else braces v (Some (n ++ [c])) t
    | None =>
      if Ascii.eqb c "{"%char then
        match t with
        | d :: t' => if Ascii.eqb d "{"%char then do r <- braces v None t'; Ok (d :: r) else braces v (Some []) t
        | [] => Err ValueError
        end
      else if Ascii.eqb c "}"%char then
        match t with
        | d :: t' => if Ascii.eqb d "}"%char then do r <- braces v None t'; Ok (d :: r) else Err ValueError
        | [] => Err ValueError
        end
      else do r <- braces v None t; Ok (c :: r)
    end
  end.
(** the text of '...' in a python script.  Simplified: a quote, backslash or end of line in it is an error (RuntimeError for the
    SyntaxError; escapes are not interpreted). *)
Definition newline : ascii := ascii_of_nat 10.
Definition literal (s : str) : res str :=
  if existsb (fun c => char_in ["'"%char; "\"%char; newline] c) s then Err RuntimeError else Ok s.
(** words of a command line: at blanks, and no other interpretation by the shell *)
Definition blank : ascii := " "%char.
Fixpoint words_from (w : str) (s : str) : list str :=
  match s with
  | [] => match w with [] => [] | _ => [w] end
  | c :: t => if Ascii.eqb c blank then match w with [] => words_from [] t | _ => w :: words_from [] t end else words_from (w ++ [c]) t
  end.
Definition words (s : str) : list str := words_from [] s.

(** ** the scripts for one pixel: bin/redmapper_run_redmapper_pixel.py:11-25, redmapper_run_zred_pixel.py:11-25, redmapper_runcat_pixel.py:11-25,
    redmapper_run_zmask_pixel.py:11-25, redmapper_run_zscan_pixel.py:9-23 *)
Inductive kind := KRedmapper | KZred | KRuncat | KZmask | KZscan.
Record task := mkTask { t_kind : kind; t_config : str; t_pixel : Z; t_nside : Z; t_path : str }.
Definition kind_of (script : str) : res kind :=
  if str_eqb script (s_ "redmapper_run_redmapper_pixel.py") then Ok KRedmapper
  else if str_eqb script (s_ "redmapper_run_zred_pixel.py") then Ok KZred
  else if str_eqb script (s_ "redmapper_runcat_pixel.py") then Ok KRuncat
  else if str_eqb script (s_ "redmapper_run_zmask_pixel.py") then Ok KZmask
  else if str_eqb script (s_ "redmapper_run_zscan_pixel.py") then Ok KZscan
  else Err OSError (* no such command *).
(** argparse: options with one value each, the last one counts; SystemExit is RuntimeError here.  Simplified: short and long names in
    full, a number is a non-empty string of digits, a value does not begin with '-'. *)
Record opts := mkOpts { o_c : option str; o_p : option Z; o_n : option Z; o_d : option str }.
Definition is_opt (a b : string) (w : str) : bool := str_eqb w (s_ a) || str_eqb w (s_ b).
Definition int_of (s : str) : res Z := if negb (Nat.eqb (List.length s) 0) && forallb is_digit s then Ok (parse s) else Err RuntimeError.
Definition starts_dash (s : str) : bool := match s with c :: _ => Ascii.eqb c "-"%char | [] => false end.
Fixpoint scan (ws : list str) (o : opts) : res opts :=
  match ws with
  | [] => Ok o
  | [_] => Err RuntimeError
  | f :: v :: t =>
    if starts_dash v then Err RuntimeError
    else if is_opt "-c" "--configfile" f then scan t (mkOpts (Some v) (o_p o) (o_n o) (o_d o))
    else if is_opt "-p" "--pixel" f then do z <- int_of v; scan t (mkOpts (o_c o) (Some z) (o_n o) (o_d o))
    else if is_opt "-n" "--nside" f then do z <- int_of v; scan t (mkOpts (o_c o) (o_p o) (Some z) (o_d o))
    else if is_opt "-d" "--path" f then scan t (mkOpts (o_c o) (o_p o) (o_n o) (Some v))
    else Err RuntimeError
  end.
(** a command line; the task it runs *)
Definition run_line (line : str) : res task :=
  match words line with
  | [] => Err OSError
  | script :: ws =>
    do k <- kind_of script;
    do o <- scan ws (mkOpts None None None None);
    match o_c o, o_p o, o_n o with
    | Some c, Some p, Some n => Ok (mkTask k c p n (match o_d o with Some d => d | None => s_ "./" end))
    | _, _, _ => Err RuntimeError
    end
  end.

(** ** bin/redmapper_batch.py:177-206; [cfg]: absolute name of the configuration file *)
Definition script_of (runmode : Z) : res str :=
  if (runmode =? 0)%Z then Ok (s_ "redmapper_run_redmapper_pixel.py") else if (runmode =? 1)%Z then Ok (s_ "redmapper_run_zred_pixel.py")
  else if (runmode =? 2)%Z then Ok (s_ "redmapper_runcat_pixel.py") else if (runmode =? 3)%Z then Ok (s_ "redmapper_run_zmask_pixel.py")
  else if (runmode =? 4)%Z then Ok (s_ "redmapper_run_zscan_pixel.py") else Err RuntimeError.
Definition run_command (runmode : Z) (cfg : str) (nside : Z) : res str :=
  do s <- script_of runmode;
  percent (s ++ s_ " -c %s -p %%s -n %d -d %s") [AS cfg; AD nside; AS (dirname cfg)].
(** 231, 294-295: the line of an LSF job; the shell puts the pixel of the job for the index.  Simplified: nothing else with '$' *)
Definition index_string : str := s_ "${pixarr[LSB_JOBINDEX-1]}".
Definition lsf_line (runmode : Z) (cfg : str) (nside : Z) : res str := do c <- run_command runmode cfg nside; percent c [AS index_string].
(** 258-278, parsl_templates.py:73, 78: the line of a job with parsl; [image]: '' without an image *)
Definition parsl_text (runmode : Z) (cfg : str) (nside : Z) (image : str) : res str :=
  do c <- run_command runmode cfg nside;
  do cmd <- percent c [AS (s_ "{pixel}")];
  Ok (match image with
      | [] => cmd
      | _ => s_ "shifter --image=" ++ image ++ s_ " /bin/bash -c "". /opt/redmapper/startup.sh && " ++ cmd ++ s_ """"
      end).
(** the command lines of the jobs *)
Definition job_lines (b : batch_system) (runmode : Z) (cfg : str) (nside : Z) (image : str) (pixels : list Z) : res (list str) :=
  do ps <- job_pixels b pixels;
  match b with
  | LSF => do line <- lsf_line runmode cfg nside; Ok (map (fun p => replace_all index_string (show p) line) ps)
  | _ => do t <- parsl_text runmode cfg nside image; do c <- literal t; mapM (fun p => braces (show p) None c) ps
  end.

(** ** bin/redmapper_batch.py:63-102: the settings of the batch system.  The file: None if there is none, Some None if it is empty *)
Definition section := list (str * str).
Fixpoint get {V} (k : str) (s : list (str * V)) : option V :=
  match s with [] => None | (k', v) :: t => if str_eqb k k' then Some v else get k t end.
(** 47-58 *)
Definition default (k v : string) (s : section) : section := match get (s_ k) s with Some _ => s | None => s ++ [(s_ k, s_ v)] end.
Definition complete (s : section) : res section :=
  match get (s_ "batch") s with
  | None => Err ValueError
  | Some _ => Ok (default "qos" "" (default "constraint" "" (default "image" "" (default "parsl_provider" "local"
                 (default "requirements" "" (default "setup" "" s))))))
  end.
(** 41-60 *)
Definition load_batchconfig (y : option (list (str * section))) : res (list (str * section)) :=
  match y with
  | None => Err AttributeError
  | Some secs => mapM (fun ks => do s <- complete (snd ks); Ok (fst ks, s)) secs
  end.
(** 18-25 *)
Definition created : list (str * section) := [(s_ "batchname", [(s_ "setup", []); (s_ "batch", s_ "lsf"); (s_ "requirements", [])])].
(** 63-95, 169: the section of the run; [mode]: -b *)
Definition batch_settings (file : option (option (list (str * section)))) (mode : option str) : res section :=
  do secs <- load_batchconfig (match file with None => Some created | Some y => y end);
  do name <- (match mode with
              | Some m => Ok m
              | None => if 1 <? List.length secs then Err RuntimeError (* argparse *)
                        else match secs with [] => Err IndexError | (k, _) :: _ => Ok k end
              end);
  match get name secs with Some s => Ok s | None => Err KeyError end.
(** 108-149: minutes and megabytes of a job, by runmode *)
Definition wall_minutes (runmode : Z) (w : option Z) : res Z :=
  do t <- (if (runmode =? 0)%Z then Ok (72 * 60)%Z else if (runmode =? 1)%Z then Ok (5 * 60)%Z
           else if ((2 <=? runmode) && (runmode <=? 4))%Z then Ok (10 * 60)%Z else Err RuntimeError);
  Ok (match w with None => t | Some m => m end).
(** 239: hours in a PBS script; 236: nodes *)
Definition pbs_hours (w : Z) : Z := Z.quot w 60.
Definition pbs_nodes (n ppn : Z) : Z := (- ((- n) / ppn))%Z.

(** ** bin/redmapper_run_many_pixels_same_node.py:16-40; [status]: exit status of a command.  The commands started, and the result *)
Definition run_many (status : str -> Z) (command pixels : str) : list str * res unit :=
  let cs := map (fun p => command ++ s_ " -p " ++ p) (splitc pixels) in
  (* 26: subprocess.call returns the status; __call__ drops it, and get() raises nothing *)
  (cs, fold_left (fun r c => do _ <- r; let _ := status c in Ok tt) cs (Ok tt)).
