From Verif.Base Require Import Py.
From Verif.Model Require Import Runner.

(** What one cluster, processed with result [o], takes from galaxy [g]: the (positive) membership
    probability of [g] if [g] is one of its neighbours inside the masking radius and limit. *)
Definition claim (c : cl) (o : outcome) (g : nat) : Q :=
  Qsum (map (fun e => if Nat.eqb (fst e) g && (no_mask (snd e) && Qlt_bool 0 (no_p (snd e))) then no_p (snd e) else 0%Q)
            (combine (cl_nb c) (oc_nbrs o))).

(** The history of a percolation run, written independently of the loop's accumulator: [history cs past] pairs
    each successfully processed cluster with its result, where each cluster is handed, for each neighbour, one
    minus the sum of all earlier claims. *)
Definition taken (past : list (cl * outcome)) (g : nat) : Q :=
  Qsum (map (fun e => claim (fst e) (snd e) g) past).
Fixpoint history (proc : cl -> list Q -> outcome) (past : list (cl * outcome)) (cs : list cl) : list (cl * outcome) :=
  match cs with
  | [] => past
  | c :: t =>
      let o := proc c (map (fun g => (1 - taken past g)%Q) (cl_nb c)) in
      history proc (if Nat.eqb (List.length (cl_nb c)) 0 || oc_bad o then past else past ++ [(c, o)]) t
  end.

(** [proc] cannot tell equal rationals apart *)
Definition respects_Qeq (proc : cl -> list Q -> outcome) : Prop :=
  forall c l1 l2, Forall2 Qeq l1 l2 -> proc c l1 = proc c l2.

(** The state of the run just before cluster number [k], and the member rows saved when it is processed. *)
Definition before (f : flags) (proc : cl -> list Q -> outcome) (cs : list cl) (k : nat) : rstate :=
  run_loop f proc (firstn k cs).
Definition saved (f : flags) (proc : cl -> list Q -> outcome) (cs : list cl) (k : nat) (c : cl) : list mrec :=
  match snd (step f proc (rs_pgal (before f proc cs k)) c) with Some l => l | None => [] end.
Definition row (f : flags) (proc : cl -> list Q -> outcome) (cs : list cl) (k : nat) (c : cl) : crec :=
  fst (fst (step f proc (rs_pgal (before f proc cs k)) c)).
