(** What a pixel's files should be, independently of the order in which tasks were run and killed. *)
From Verif.Base Require Import Py.
From Verif.Model Require Import PixelTask.

(** the three catalogs belong together: each is what some run makes of the one before it *)
Definition first_ok (r : runs) (t : table) : Prop := exists n, r_first r n = Some t.
Definition like_ok (r : runs) (t t' : table) : Prop := exists n, r_like r n t = Some t'.
Definition final_ok (r : runs) (t t' : table) : Prop := exists n m, r_perc r n t = Some (t', m).
(** a file holds exactly one table *)
Definition holds (d : fs) (n : fname) (t : table) : Prop := d n = [t].
Definition absent (d : fs) (n : fname) : Prop := d n = [].
Definition no_files : fs := fun _ => [].
Definition First_cat := mkFN First false false.
Definition Like_cat := mkFN Like false false.
Definition Final_cat := mkFN Final false false.
Definition Final_mem := mkFN Final false true.
Definition Zmask_cat := mkFN Zmask false false.
Definition Zscan_cat := mkFN Zscan true false.
(** the state of a pixel after any history *)
Definition sound (r : runs) (d : fs) : Prop :=
  (absent d First_cat \/ exists t, holds d First_cat t /\ first_ok r t) /\
  (absent d Like_cat \/ exists t t', holds d First_cat t /\ holds d Like_cat t' /\ like_ok r t t') /\
  (absent d Final_cat \/ exists t t', holds d Like_cat t /\ holds d Final_cat t' /\ final_ok r t t') /\
  (absent d Final_mem \/ exists t t' m n, holds d Like_cat t /\ holds d Final_cat t' /\ holds d Final_mem m /\ r_perc r n t = Some (t', Some m)).
