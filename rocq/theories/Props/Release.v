(** C198: runs with one object, one after the other. *)
From Coq Require Import List.
From Verif.Base Require Import Py.
From Verif.Model Require Import Release.
From Verif.Spec Require Import Release.
From Verif.Proofs Require Import Release.
From Coq Require Import Lia. Import ListNotations.

(** Whatever the runs before, a run that ends raises nothing in its clean-up, holds nothing that it read, and leaves its catalogue and members, which are then written. *)
Theorem C198_ends {A} (l : list (course A)) cat mem : run (runs fresh l) (Ends cat mem) = (mkRunner [] (Some (Some cat)) (Some mem), None) /\
  written (fst (run (runs fresh l) (Ends cat mem))) true = Ok (Some (cat, mem)) /\ written (fst (run (runs fresh l) (Ends cat mem))) false = Ok (Some (cat, None)).
Proof.
  assert (E : run (runs fresh l) (Ends cat mem) = (mkRunner [] (Some (Some cat)) (Some mem), None)); [|rewrite E; repeat split].
  unfold run. rewrite cleanup_ok; [reflexivity|]. intros t. apply stores_In. right. apply all_things.
Qed.
Print Assumptions C198_ends.
(** A run that finds nothing to do leaves no catalogue, and nothing is written, whatever the runs before. *)
Theorem C198_nothing {A} (l : list (course A)) save : snd (run (runs fresh l) Nothing) = None /\ u_cat (fst (run (runs fresh l) Nothing)) = Some None /\ written (fst (run (runs fresh l) Nothing)) save = Ok None.
Proof. repeat split. Qed.
Print Assumptions C198_nothing.
(** An exception of a run is what the caller sees. *)
Theorem C198_raises {A} (u : runner A) c e : (exists n, c = Stops n e) \/ (exists cat mem, c = Breaks e cat mem) -> snd (run u c) = Some e.
Proof. intros [[n ->]|(cat & mem & ->)]; reflexivity. Qed.
Print Assumptions C198_raises.
(** A run that ends is the only one that releases what was read.  Finding: what a run without galaxies, or one that is broken off, has read is held until a run ends. *)
Theorem C198_held_refuted {A} (u : runner A) c t : match c with Ends _ _ => False | Stops _ _ => holds u t | _ => True end -> holds (fst (run u c)) t.
Proof.
  unfold holds. destruct c as [n e| |e cat mem|cat mem]; cbn [run fst u_held]; intros H; try contradiction; apply stores_In; [left; exact H|right; apply all_things|right; apply all_things].
Qed.
Print Assumptions C198_held_refuted.
(** Before anything is read, a stop has stored just what came before it. *)
Theorem C198_stops {A} n e t : holds (fst (run (@fresh A) (Stops n e))) t <-> In t (firstn n [Cbkg; Bkg; ZredBkg; ZredStr; ZlambdaCorr; MaskOf; DepthStr; CosmoOf; Gals]).
Proof. unfold holds. cbn [run fst u_held]. rewrite stores_In. cbn [fresh u_held]. split; [intros [[]|H]; exact H|right; assumption]. Qed.
Print Assumptions C198_stops.
(** Finding: a run that stops before its catalogue is read leaves the catalogue and members of the run before, and output then writes them again;
    one that finds nothing leaves the members of the run before, without a catalogue. *)
Theorem C198_stale_refuted {A} (l : list (course A)) cat mem n e save :
  written (runs fresh (l ++ [Ends cat mem; Stops n e])) save = written (runs fresh (l ++ [Ends cat mem])) save /\ u_mem (runs fresh (l ++ [Ends cat mem; Nothing])) = Some mem.
Proof.
  assert (E : fold_left (fun u c => fst (run u c)) [Ends cat mem] (runs fresh l) = mkRunner [] (Some (Some cat)) (Some mem)) by (cbn [fold_left]; rewrite (proj1 (C198_ends l cat mem)); reflexivity).
  assert (G : forall c, runs fresh (l ++ [Ends cat mem; c]) = fst (run (mkRunner [] (Some (Some cat)) (Some mem)) c)).
  { intros c. unfold runs. rewrite fold_left_app. change [Ends cat mem; c] with ([Ends cat mem] ++ [c]). rewrite fold_left_app. fold (@runs A fresh l). rewrite E. reflexivity. }
  rewrite !G. unfold runs at 1. rewrite fold_left_app. fold (@runs A fresh l). rewrite E. split; reflexivity.
Qed.
Print Assumptions C198_stale_refuted.
(** Finding: if every run so far has stopped before its catalogue was read, or there was none, output is an AttributeError. *)
Theorem C198_unset_refuted {A} (l : list (course A)) save : Forall (fun c => exists n e, c = Stops n e) l -> written (runs fresh l) save = Err AttributeError.
Proof.
  intros F. assert (G : forall u : runner A, u_cat u = None -> u_cat (runs u l) = None); [|unfold written; rewrite G; reflexivity].
  induction F as [|c t (n & e & ->) F IH]; intros u U; [exact U|]. unfold runs in *. cbn [fold_left]. apply IH. exact U.
Qed.
Print Assumptions C198_unset_refuted.
(** A run that breaks off in the loop leaves the catalogue as far as it came, and output would write it. *)
Theorem C198_breaks {A} (u : runner A) e cat mem : written (fst (run u (Breaks e (Some cat) (Some mem)))) true = Ok (Some (cat, mem)).
Proof. reflexivity. Qed.
Print Assumptions C198_breaks.
Example C198_ex : runs fresh [Stops 4 IOError; Nothing; Ends 7 (Some 8)] = mkRunner [] (Some (Some 7)) (Some (Some 8)) /\ u_held (runs (@fresh nat) [Stops 2 IOError]) = [Cbkg; Bkg]. Proof. split; reflexivity. Qed.
