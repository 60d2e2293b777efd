(** Lines of a status file. *)
From Coq Require Import ZArith Ascii String.
From Verif.Model Require Import Names Catalog.
From Coq Require Import List. Import ListNotations.
Local Open Scope list_scope.
(** the first word of a line is a name [w] (in any case) behind two characters and before one, as in VmRSS: *)
Definition word_of (w : string) (k : str) : Prop := exists a b body z, k = a :: b :: body ++ [z] /\ map lower_ascii body = s_ w.
Definition line_of (w : string) (line : list str) : Prop := exists k t, line = k :: t /\ word_of w k.
(** the value in the last line of a name, 0 if there is none *)
Definition reports (parse : str -> option Z) (lines : list (list str)) (w : string) (n : Z) : Prop :=
  (exists pre k v t post, lines = pre ++ (k :: v :: t) :: post /\ word_of w k /\ parse v = Some n /\ Forall (fun x => ~ line_of w x) post) \/
  (n = 0%Z /\ Forall (fun x => ~ line_of w x) lines).
(** a line that can be read: it is not blank, and has a number if it is one of memory *)
Definition readable (parse : str -> option Z) (line : list str) : Prop :=
  line <> [] /\ (line_of "rss" line \/ line_of "peak" line -> exists k v t n, line = k :: v :: t /\ parse v = Some n).
