(** Files as a user sees them. *)
From Coq Require Import Arith List.
From Verif.Model Require Import CalRun.
Import ListNotations.
Local Open Scope nat_scope.

(** the same files with the same contents *)
Definition same_files (d d' : disk) : Prop := forall f, d f = d' f.

(** The configuration each file of the calibration is to be computed with: [c] is what the step sees.  In iteration i the
    red sequence is fitted to the members of the iteration before (the color members in the first), the seeds are the
    training seeds, from the second iteration on those cut in the first; the clusters are centered on the first-pass
    function in the first iteration and on the measured one later; the random runs start from the subsampled likelihood
    catalog; centering, corrections and members are calibrated on the catalog of the iteration, with the centering the
    user configured.  The final run uses the full seeds and the last correction and centering. *)
Definition uses (f : fname) (c : cfg) : Prop :=
  match f with
  | It i k =>
    c_base c = Some (i, false) /\
    (if i =? 1 then c_seed c = Some SeedTrain else c_seed c = Some CutSeeds) /\
    (match k with Zmem => c_zmem c = Some (It i Zmem) | _ => c_zmem c = Some (if i =? 1 then ColorMem else It (i - 1) Zmem) end) /\
    match k with
    | Pars | CalZreds | Zreds | BkgChi | BkgZred => c_center c = Configured
    | SeedZreds | Seeds | SubLike => c_center c = if i =? 1 then FirstPass else WcenZred
    | Final | Members | Like => (c_center c = if i =? 1 then FirstPass else WcenZred) /\ c_zl c = NoZl
    | RandFinal | RandMembers => c_center c = Random /\ c_cat c = Some (It i SubLike) /\ c_zl c = NoZl
    | RandsatFinal | RandsatMembers => c_center c = RandomSatellite /\ c_cat c = Some (It i SubLike) /\ c_zl c = NoZl
    | Wcen => c_center c = Configured /\ c_cat c = Some (It i Final)
    | Zlambda | Plot | Zmem => c_center c = Configured /\ c_cat c = Some (It i Final) /\ c_wcen c = Some (It i Wcen) /\ c_zl c = ZlOf (It i Zlambda)
    end
  | ItB n k => c_base c = Some (n, true) /\ c_seed c = Some FullSeeds /\ c_center c = Configured /\ c_wcen c = Some (It n Wcen) /\ c_zl c = ZlOf (It n Zlambda)
     /\ (k = Plot -> c_cat c = Some (ItB n Final))
  | _ => True
  end.
(** the files of the iterations and of the final run *)
Definition made (n : nat) (f : fname) : Prop :=
  match f with
  | It i k => 1 <= i <= n /\ (In k [SubLike; RandFinal; RandMembers; RandsatFinal; RandsatMembers] -> i = 1)
  | ItB m k => m = n /\ In k [SeedZreds; Seeds; Final; Members; Plot]
  | _ => False
  end.
(** the files a configuration names as input *)
Definition inputs (c : cfg) : list (option fname) := [c_cat c; c_seed c; c_zmem c; c_wcen c].
