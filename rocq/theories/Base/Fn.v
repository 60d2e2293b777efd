(** Finite-support style functions on [nat]: point update. *)
From Verif.Base Require Import Py.

Definition upd {A} (f : nat -> A) (i : nat) (v : A) : nat -> A :=
  fun j => if Nat.eqb j i then v else f j.

Lemma upd_same {A} (f : nat -> A) i v : upd f i v i = v.
Proof. unfold upd. rewrite Nat.eqb_refl. reflexivity. Qed.
Lemma upd_other {A} (f : nat -> A) i v j : j <> i -> upd f i v j = f j.
Proof. unfold upd. destruct (Nat.eqb_spec j i); congruence. Qed.

Ltac upd_case :=
  repeat match goal with
  | H : context [upd ?f ?i ?v ?j] |- _ =>
      first [ rewrite (upd_same f i v) in H
            | rewrite (upd_other f i v j) in H by (congruence || lia)
            | destruct (Nat.eq_dec j i) as [?Heq|?Hneq];
              [ subst; rewrite ?(upd_same f) in H | rewrite (upd_other f i v j) in H by congruence ] ]
  | |- context [upd ?f ?i ?v ?j] =>
      first [ rewrite (upd_same f i v)
            | rewrite (upd_other f i v j) by (congruence || lia)
            | destruct (Nat.eq_dec j i) as [?Heq|?Hneq];
              [ subst; rewrite ?(upd_same f) | rewrite (upd_other f i v j) by congruence ] ]
  end.
