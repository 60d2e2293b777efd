(** Property C07 (galaxy.py append_galaxies with parallel=True), for every schedule [ls]. *)
From Coq Require Import Permutation.
From Verif.Base Require Import Py PyLemmas Fn.
From Verif.Model Require Import ParMaker.
From Verif.Spec Require Import ParMaker.
From Verif.Proofs Require Import ParMaker.

(** At every moment a pixel file holds the rows of the completed writes to that pixel, in completion
    order, and nothing else; and what each process completed is an initial part of its queue. *)
Theorem C07_no_lost_append : forall queue ls,
  (forall p, match files (run queue ls) p with None => [] | Some l => l end
             = rows_for p (map snd (hist (run queue ls)))) /\
  (forall i, exists rest, queue i = writes_of i (hist (run queue ls)) ++ rest).
Proof. intros queue ls. split; [apply run_contents|apply run_prefix]. Qed.
Print Assumptions C07_no_lost_append.

(** A process whose append calls have all returned has all its rows on disk. *)
Theorem C07_returned_is_stored : forall queue ls i,
  pcs (run queue ls) i = Want -> todo (run queue ls) i = [] ->
  writes_of i (hist (run queue ls)) = queue i.
Proof. exact run_finished. Qed.
Print Assumptions C07_returned_is_stored.

(** When all [n] processes have returned, each pixel file is a rearrangement of all the rows sent to it. *)
Theorem C07_all_returned : forall queue ls n p,
  (forall i, n <= i -> queue i = []) ->
  (forall i, i < n -> pcs (run queue ls) i = Want /\ todo (run queue ls) i = []) ->
  Permutation (match files (run queue ls) p with None => [] | Some l => l end)
              (rows_for p (List.concat (map queue (seq 0 n)))).
Proof. exact all_finished. Qed.
Print Assumptions C07_all_returned.

Example C07_ex : (* two processes write the same pixel, interleaved *)
  let queue := fun i : nat => match i with
     | 0 => [(5, [1; 2]%Z); (6, [9]%Z)] | 1 => [(5, [3]%Z)] | _ => [] end in
  let s := run queue [Adv 0; Adv 1; Adv 0; Adv 1; Adv 0; Adv 1; Adv 0; Adv 1; Adv 0; Adv 1; Adv 0; Adv 0;
                      Adv 1; Adv 0; Adv 1] in
  files s 5 = Some [1; 2; 3]%Z /\ files s 6 = Some [9]%Z /\ todo s 0 = [] /\ todo s 1 = [].
Proof. vm_compute. auto. Qed.
