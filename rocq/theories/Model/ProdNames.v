(** The names of the volume-limit mask and of the weighted random points: volumelimit.py:26-67 (VolumeLimitMask.__init__),
    randoms.py:281-288, 357-360, 407-408.  Numbers are exact, so int() of a product is the exact truncation (in floating point
    int(0.29*100) is 28).  The directory, base and version of the name are one string (configuration.py:839-878). *)
From Coq Require Import QArith String.
From Verif.Base Require Import Py.
From Verif.Model Require Import Names Util.
From Coq Require Import List. Import ListNotations.
Local Open Scope list_scope.

(** int(q * k) *)
Definition int_of (q : Q) (k : Z) : Z := Qtrunc (q * inject_Z k).
(** volumelimit.py:54-56 *)
Definition vlim_name (base : str) (lstar : Q) : str := base ++ s_ "_vl" ++ fmt 2 (int_of lstar 10) ++ s_ "_vlim_zmask.fit".
(** files: the tables in a file, one after the other *)
Definition disk := str -> list Z.
(** fitsio.write without clobber adds to the file (catalog.py:126-151) *)
Definition add (d : disk) (n : str) (t : Z) : disk := fun m => if str_eqb m n then d m ++ [t] else d m.
(** volumelimit.py:53-67: the mask in use; [build geometry lstar] is the mask made and written *)
Definition vlim_init (d : disk) (base : str) (lstar : Q) (vlimfile : option str) (geometry : bool) (build : bool -> Q -> res Z) : res (disk * Z) :=
  let name := match vlimfile with Some f => f | None => vlim_name base lstar end in
  match d name with
  | t :: _ => Ok (d, t)
  | [] => do t <- build geometry lstar; Ok (add d name t, t)
  end.

(** what the weights are asked for: the range of the configuration, the argument zrange, the least richness, the richness bin, the
    luminosity cut *)
Record wargs := mkWargs { wa_conf : Q * Q; wa_zrange : option (Q * Q); wa_min : Q; wa_bin : option (Q * Q); wa_lstar : Q }.
(** randoms.py:281-288, 357 *)
Definition weights_base (a : wargs) : str :=
  s_ "weighted_randoms_z" ++ fmt 3 (int_of (fst (wa_conf a)) 100) ++ s_ "-" ++ fmt 3 (int_of (snd (wa_conf a)) 100) ++
  s_ "_lgt" ++ fmt 3 (int_of (wa_min a) 1) ++
  match wa_bin a with None => [] | Some (lo, hi) => s_ "_l" ++ fmt 3 (int_of lo 1) ++ s_ "-" ++ fmt 3 (int_of hi 1) end ++
  s_ "_vl" ++ fmt 2 (int_of (wa_lstar a) 10).
Definition weights_name (base : str) (a : wargs) : str := base ++ s_ "_" ++ weights_base a ++ s_ ".fit".
Definition area_name (base : str) (a : wargs) : str := base ++ s_ "_" ++ weights_base a ++ s_ "_area.fit".
(** randoms.py:360, 408: both tables are written; [weigh] is what is computed.  The names are returned. *)
Definition weigh_run (d : disk) (base : str) (a : wargs) (weigh : wargs -> res (Z * Z)) : res (disk * (str * str)) :=
  do p <- weigh a;
  let d1 := add d (weights_name base a) (fst p) in
  Ok (add d1 (area_name base a) (snd p), (weights_name base a, area_name base a)).
(** reading a file gives its first table *)
Definition read1 (d : disk) (n : str) : res Z := match d n with [] => Err OSError | t :: _ => Ok t end.
