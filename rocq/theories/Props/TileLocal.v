(** C182: the clusters of a tile are those of the whole sky. *)
From Coq Require Import QArith ZArith.
From Verif.Base Require Import Py PyLemmas Fn.
From Verif.Model Require Import Runner.
From Verif.Spec Require Import Runner TileLocal.
From Verif.Proofs Require Import Runner TileLocal.
From Coq Require Import Lia List. Import ListNotations.
Local Open Scope nat_scope.

(** A part of a run, worked on by itself in the same order, gives each of its clusters the richness and the members (p and pfree) it has in
    the whole run, provided that no cluster of the part shares a galaxy with an earlier cluster outside of it. *)
Theorem C182_part_partial : forall f proc proc' r sel cs cs' k c, part_of r proc proc' sel cs cs' -> closed sel cs -> numbered r sel cs ->
  nth_error cs k = Some c -> sel k = true ->
  exists c', nth_error cs' (number sel k) = Some c' /\
    cr_lambda (row f proc' cs' (number sel k) c') = cr_lambda (row f proc cs k c) /\
    saved f proc' cs' (number sel k) c' = map (fun m => mkMR (cl_id c') (r (mr_gal m)) (mr_p m) (mr_pfree m)) (saved f proc cs k c).
Proof. exact part_same. Qed.
Print Assumptions C182_part_partial.

(** The clusters of a run are those it would have without the less likely clusters after them. *)
Theorem C182_later : forall f proc cs ds, rs_cat (run_loop f proc (cs ++ ds)) = rs_cat (run_loop f proc cs) ++ skipn (List.length cs) (rs_cat (run_loop f proc (cs ++ ds))) /\
  exists ms, match rs_mem (run_loop f proc (cs ++ ds)) with Some l => l | None => [] end = match rs_mem (run_loop f proc cs) with Some l => l | None => [] end ++ ms.
Proof.
  intros f proc cs. assert (X : forall ds, exists t ms, rs_cat (run_loop f proc (cs ++ ds)) = rs_cat (run_loop f proc cs) ++ t /\ olist (rs_mem (run_loop f proc (cs ++ ds))) = olist (rs_mem (run_loop f proc cs)) ++ ms).
  { induction ds as [|d ds (t & ms & A & B)] using rev_ind; [exists [], []; rewrite !app_nil_r; auto|].
    rewrite app_assoc, run_loop_snoc. unfold run_step. destruct (step f proc _ d) as [[x pg] m]. cbn [rs_cat rs_mem]. rewrite olist_add, A, B, <- !app_assoc. eauto. }
  intros ds. destruct (X ds) as (t & ms & A & B). split; [|exists ms; exact B]. rewrite A at 1. f_equal. rewrite A.
  assert (L : List.length cs = List.length (rs_cat (run_loop f proc cs))) by (symmetry; apply run_cat_length). rewrite L, skipn_app, skipn_all, Nat.sub_diag. reflexivity.
Qed.
Print Assumptions C182_later.

(** Finding: a border that contains all clusters which share galaxies with those of the tile is not enough: in a chain of clusters, each of
    which shares a galaxy with the next only, leaving out the first changes the richness of the last, however long the chain. *)
Theorem C182_chain_refuted : forall n, exists cs c, List.length cs = n + 2 /\ Forall (fun d => NoDup (cl_nb d)) cs /\ NoDup (map cl_id cs) /\
  (forall i j a b g, nth_error cs i = Some a -> nth_error cs j = Some b -> In g (cl_nb a) -> In g (cl_nb b) -> i <= j + 1 /\ j <= i + 1) /\
  nth_error cs (n + 1) = Some c /\ nth_error (tl cs) n = Some c /\
  ~ (cr_lambda (row (mkFL true true false) greedy cs (n + 1) c) == cr_lambda (row (mkFL true true false) greedy (tl cs) n c))%Q.
Proof.
  intros n. exists (map link (seq 0 (n + 2))), (link (n + 1)).
  assert (T : tl (map link (seq 0 (n + 2))) = map link (seq 1 (n + 1))) by (replace (n + 2) with (S (n + 1)) by lia; reflexivity).
  assert (I : forall s m k, k < m -> nth_error (map link (seq s m)) k = Some (link (s + k))).
  { intros s m k H. rewrite nth_error_map. rewrite (nth_error_nth' (seq s m) 0) by (rewrite seq_length; exact H). rewrite seq_nth by exact H. reflexivity. }
  assert (N : forall s m k a, nth_error (map link (seq s m)) k = Some a -> a = link (s + k)).
  { intros s m k a H. assert (L : k < m) by (rewrite <- (seq_length m s), <- (map_length link); apply nth_error_Some; congruence). rewrite (I s m k L) in H. injection H as <-. reflexivity. }
  split; [rewrite map_length, seq_length; reflexivity|].
  split; [apply Forall_forall; intros d Hd; apply in_map_iff in Hd as (i & <- & _); cbn; constructor; [cbn; intros [X|[]]; lia|constructor; [intros []|constructor]]|].
  split; [rewrite map_map; apply FinFun.Injective_map_NoDup; [intros x y; apply Nat2Z.inj|apply seq_NoDup]|].
  split. { intros i j a b g Ha Hb Ga Gb. apply N in Ha. apply N in Hb. subst a b. cbn in Ga, Gb. lia. }
  rewrite T. split; [apply (I 0); lia|]. split; [rewrite (I 1) by lia; f_equal; f_equal; lia|].
  change (link (n + 1)) with (link (0 + (n + 1))) at 1. rewrite (chain_row 0 (n + 1) (n + 2)) by lia. replace (link (n + 1)) with (link (1 + n)) by (f_equal; lia). rewrite (chain_row 1 n (n + 1)) by lia.
  rewrite Nat.add_1_r, Nat.even_succ, <- Nat.negb_even. destruct (Nat.even n); cbn; discriminate.
Qed.
Print Assumptions C182_chain_refuted.

(** a part that meets the conditions: the clusters 0 and 2 of three, galaxies numbered from 10 *)
Example C182_ex : let cs := [mkCL 1 [0; 1]; mkCL 2 [5; 6]; mkCL 3 [1; 2]] in let sel k := negb (Nat.eqb k 1) in let r g := g + 10 in
  let proc (_ : cl) (pf : list Q) := mkOC false (Qsum pf) (map (fun x => mkNO (1#2) x true true false) pf) in
  part_of r proc proc sel cs [mkCL 1 [10; 11]; mkCL 2 [11; 12]] /\ closed sel cs /\ numbered r sel cs /\
  (cr_lambda (row (mkFL true true false) proc cs 2%nat (mkCL 3 [1; 2]%nat)) == 3 # 2)%Q.
Proof.
  cbv zeta. split; [|split; [|split; [|vm_compute; reflexivity]]].
  - split; [reflexivity|]. intros [|[|[|k]]] c H S; try discriminate S; cbn in H; [injection H as <-; exists (mkCL 1 [10; 11]); split; [reflexivity|split; reflexivity]|injection H as <-; exists (mkCL 2 [11; 12]); split; [reflexivity|split; reflexivity]|destruct k; discriminate H].
  - intros [|[|[|i]]] [|[|[|k]]] d c g L A B S T Ga Gb; try discriminate S; try discriminate T; try lia; cbn in A, B; try (destruct i; discriminate A); try (destruct k; discriminate B). injection A as <-. injection B as <-. cbn in Ga, Gb. lia.
  - intros i k d c g h _ _ _ _ _ _ E. lia.
Qed.
