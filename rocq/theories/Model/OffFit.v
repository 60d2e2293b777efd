(** The objective of the fit of one correlation between two colors: fitters.py:478-559 (the checks), 561-598 (fit, up to the optimiser) and 600-663.
    Real arithmetic.  Inputs: the least eigenvalue of a matrix (657-658) and the sum of the logarithms for the galaxies (615-644, for one galaxy C54), None if the
    objective is not finite.  Parameters are functions of the node.  The diagonal is not negative. *)
From Coq Require Import Reals.
From Verif.Base Require Import Py.
From Verif.Model Require Import BkgGen.
From Coq Require Import List. Import ListNotations.
Local Open Scope R_scope.

(** 526-545, 555-556: the sizes of d1, d2, s1, s2, probs, bkgs against that of the redshifts, and the shape of mag_errs *)
Definition make (n : nat) (sizes shape : list nat) (j k : nat) : res unit :=
  if negb (forallb (Nat.eqb n) sizes) then Err ValueError
  else match shape with
       | [r; c] => if negb (Nat.eqb r n) then Err ValueError else if (Nat.ltb (S j) c && Nat.ltb (S k) c)%bool then Ok tt else Err IndexError
       | _ => Err ValueError
       end.

(** color, color, node *)
Definition cube := nat -> nat -> nat -> R.
(** 623 *)
Definition write_first (j k : nat) (p : nat -> R) (m : cube) : cube :=
  fun a b i => if (Nat.eqb a j && Nat.eqb b k)%bool then p i * sqrt (m j j i) * sqrt (m k k i) else m a b i.
(** 624 *)
Definition write_second (j k : nat) (m : cube) : cube :=
  fun a b i => if (Nat.eqb a k && Nat.eqb b j)%bool then m j k i else m a b i.
Definition write_pair (j k : nat) (p : nat -> R) (m : cube) : cube := write_second j k (write_first j k p m).

Record ofit := mkOfit { o_j : nat; o_k : nat; o_nodes : nat; o_prior : R; o_mineig : R }.
(** 646 *)
Definition plain (f : ofit) (s : R) (p : nat -> R) : R :=
  - (s - fold_right Rplus 0 (map (fun i => 1/2 * (p i / o_prior f) ^ 2) (seq 0 (o_nodes f)))).
(** 653-659 *)
Definition wall (least : (nat -> nat -> R) -> R) (f : ofit) (m : cube) : bool :=
  existsb (fun i => Rltb (least (fun a b => m a b i)) (o_mineig f)) (seq 0 (o_nodes f)).
(** 600-663: the value, and the matrices of the caller afterwards *)
Definition call (least : (nat -> nat -> R) -> R) (like : (nat -> R) -> option R) (f : ofit) (m : option cube) (p : nat -> R) : R * option cube :=
  let m' := option_map (write_pair (o_j f) (o_k f) p) m in
  (match like p with
   | None => 100000000000
   | Some s => match m' with Some c => if wall least f c then plain f s p + 100000 else plain f s p | None => plain f s p end
   end, m').
(** the calls of the optimiser (585-595), one after the other: the matrices afterwards *)
Definition calls (least : (nat -> nat -> R) -> R) (like : (nat -> R) -> option R) (f : ofit) (m : option cube) (ps : list (nat -> R)) : option cube :=
  fold_left (fun m p => snd (call least like f m p)) ps m.
