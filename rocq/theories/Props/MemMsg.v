(** C199: the message on memory. *)
From Coq Require Import ZArith Ascii String.
From Verif.Base Require Import Py.
From Verif.Model Require Import Names Catalog MemMsg.
From Verif.Spec Require Import MemMsg.
From Verif.Proofs Require Import MemMsg.
From Coq Require Import Lia List. Import ListNotations.
Local Open Scope list_scope.

(** There is always a message.  If all lines can be read it has the values of the last lines for the current and the peak memory, in MB, and 0 where there is none. *)
Theorem C199_usage parse lines : Forall (readable parse) lines -> exists r p, reports parse lines "rss" r /\ reports parse lines "peak" p /\ memory_string parse (Some lines) = Usage (Z.quot r 1000) (Z.quot p 1000).
Proof. intros F. destruct (lines_ok parse lines F (0, 0)%Z) as (r & p & E & R & P). exists r, p. split; [exact R|]. split; [exact P|]. cbn [memory_string]. rewrite E. reflexivity. Qed.
Print Assumptions C199_usage.
(** Without a file, or with a line that cannot be read anywhere in it, the message is that there is no status, and nothing is raised. *)
Theorem C199_no_status parse : memory_string parse None = NoStatus /\ forall lines x, In x lines -> ~ readable parse x -> memory_string parse (Some lines) = NoStatus.
Proof. split; [reflexivity|]. intros lines x X N. destruct (lines_err parse lines (0, 0)%Z) as [e E]; [exists x; tauto|]. cbn [memory_string]. rewrite E. reflexivity. Qed.
Print Assumptions C199_no_status.
Definition digits (v : str) : option Z := if eq_str v (s_ "204800") then Some 204800%Z else if eq_str v (s_ "1536") then Some 1536%Z else None.
Example C199_ex : memory_string digits (Some [[s_ "Name:"; s_ "python"]; [s_ "VmPeak:"; s_ "204800"; s_ "kB"]; [s_ "VmRSS:"; s_ "1536"; s_ "kB"]; [s_ "Threads:"; s_ "1"]]) = Usage 1 204 /\
  memory_string digits (Some [[s_ "VmRSS:"; s_ "1536"; s_ "kB"]; []]) = NoStatus /\ Forall (readable digits) [[s_ "Name:"; s_ "python"]; [s_ "VmPeak:"; s_ "204800"; s_ "kB"]].
Proof.
  split; [reflexivity|]. split; [reflexivity|]. repeat constructor; try discriminate.
  - intros [H|H]; [apply (line_key "rss" _ _ rss_ne) in H|apply (line_key "peak" _ _ peak_ne) in H]; discriminate.
  - intros _. exists (s_ "VmPeak:"), (s_ "204800"), [s_ "kB"], 204800%Z. split; reflexivity.
Qed.
