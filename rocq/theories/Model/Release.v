(** What a run over clusters holds, over runs with one object: cluster_runner.py:144-200 (_setup, the order in which what is read is stored), 331-341, 363, 587-588 (run), 610-626 (_cleanup),
    650-660 (output).  What a run computes is a parameter.  A run stops with an exception after some of what it reads is stored, or later; or it finds nothing to do; or it ends. *)
From Coq Require Import List.
From Verif.Base Require Import Py.
Import ListNotations.

Inductive thing := Cbkg | Bkg | ZredBkg | ZredStr | ZlambdaCorr | MaskOf | DepthStr | CosmoOf | Gals.
Definition thing_dec (a b : thing) : {a = b} + {a <> b}. Proof. decide equality. Defined.
(** 146-150, 152-155, 158-161, 164-168, 173, 176-179, 184, 198: in the order of the code (with a color background cbkg is first, else bkg: not told apart) *)
Definition things : list thing := [Cbkg; Bkg; ZredBkg; ZredStr; ZlambdaCorr; MaskOf; DepthStr; CosmoOf; Gals].
(** the object: the attributes that exist, the catalogue and the members; [A]: catalogues.  The constructor sets neither, so these are unset ([None]), or set to python's None or to a catalogue *)
Record runner (A : Type) := mkRunner { u_held : list thing; u_cat : option (option A); u_mem : option (option A) }.
Arguments mkRunner {A}. Arguments u_held {A}. Arguments u_cat {A}. Arguments u_mem {A}.
(** how a run goes: an exception with [n] things stored by then; no galaxies, no depth or nothing in _more_setup; an exception later, with a catalogue by then and with members if
    line 363 was reached; the end *)
Inductive course (A : Type) := Stops (n : nat) (e : exn) | Nothing | Breaks (e : exn) (cat : option A) (mem : option (option A)) | Ends (cat : A) (mem : option A).
Arguments Stops {A}. Arguments Nothing {A}. Arguments Breaks {A}. Arguments Ends {A}.

(** setting an attribute *)
Definition store (h : list thing) (t : thing) : list thing := if in_dec thing_dec t h then h else h ++ [t].
(** del self.x *)
Definition release (h : list thing) (t : thing) : res (list thing) := if in_dec thing_dec t h then Ok (remove thing_dec t h) else Err AttributeError.
Fixpoint release_all (h : list thing) (l : list thing) : res (list thing) := match l with [] => Ok h | t :: r => do h' <- release h t; release_all h' r end.
(** 616-624 *)
Definition cleanup (h : list thing) : res (list thing) := release_all h [Gals; Bkg; Cbkg; ZredBkg; ZredStr; DepthStr; ZlambdaCorr; MaskOf; CosmoOf].
(** the object after a run, and the exception if there was one *)
Definition run {A} (u : runner A) (c : course A) : runner A * option exn :=
  match c with
  | Stops n e => (mkRunner (fold_left store (firstn n things) (u_held u)) (u_cat u) (u_mem u), Some e)
  | Nothing => (mkRunner (fold_left store things (u_held u)) (Some None) (u_mem u), None)
  | Breaks e cat mem => (mkRunner (fold_left store things (u_held u)) (Some cat) (match mem with Some m => Some m | None => u_mem u end), Some e)
  | Ends cat mem =>
      let h := fold_left store things (u_held u) in
      match cleanup h with Ok h' => (mkRunner h' (Some (Some cat)) (Some mem), None) | Err e => (mkRunner h (Some (Some cat)) (Some mem), Some e) end
  end.
Definition runs {A} (u : runner A) (l : list (course A)) : runner A := fold_left (fun u c => fst (run u c)) l u.
Definition fresh {A} : runner A := mkRunner [] None None.
(** 650-660: what output writes: the catalogue, and the members if they are asked for and there are some *)
Definition written {A} (u : runner A) (savemembers : bool) : res (option (A * option A)) :=
  match u_cat u with
  | None => Err AttributeError
  | Some None => Ok None
  | Some (Some c) => if savemembers then match u_mem u with None => Err AttributeError | Some m => Ok (Some (c, m)) end else Ok (Some (c, None))
  end.
