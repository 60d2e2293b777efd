(** Vocabulary for the statements about names of files. *)
From Coq Require Import Ascii String.
From Verif.Base Require Import Py.
From Verif.Model Require Import Names.
Local Open Scope nat_scope.
Local Open Scope list_scope.

(** the text [part] stands somewhere in [s] *)
Definition occurs (part s : str) : Prop := exists a b, s = a ++ part ++ b.
(** the text contains an underscore followed by seven digits *)
Definition has_pixel_text (s : str) : Prop :=
  exists a d b, s = a ++ s_ "_" ++ d ++ b /\ length d = 7 /\ forallb is_digit d = true.
(** the value of a decimal numeral *)
Fixpoint numeral (s : str) : Z :=
  match s with [] => 0%Z | c :: t => (digit_val c * 10 ^ Z.of_nat (length t) + numeral t)%Z end.
(** the files a parallel run has written: one per pixel, [rows p] the number of its rows *)
Definition pixel_files (outpath outbase : str) (pixels : list Z) (rows : Z -> nat) : list (str * nat) :=
  map (fun p => (pixel_file outpath outbase p, rows p)) pixels.
(** the job files after [n] submissions in a fresh directory *)
Fixpoint submissions (n : nat) : list str :=
  match n with
  | O => []
  | S k => let old := submissions k in
           if existsb (str_eqb (job_index old)) old then old else old ++ [job_index old]
  end.
