(** C180.  The redshift correction as it acts on the catalogue of a run. *)
From Coq Require Import String Reals Lra.
From Verif.Base Require Import Py PyLemmas Fn.
From Verif.Model Require Import Catalog ZCorr PzRow.
From Verif.Spec Require Import ZCorr PzRow.
From Verif.Proofs Require Import Catalog ZCorr PzRow.
From Coq Require Import Lia List. Import ListNotations.
Local Open Scope R_scope.

(** After the loop every cluster's row holds the corrected redshift, error, bins and values that the correction returns for what the row
    held before, with unit integral; nothing else in the catalogue has changed. *)
Theorem C180_rows : forall simps corr_of rows m, rhomogeneous simps -> (forall lam, c_niter (corr_of lam) <> 0%nat) -> NoDup rows ->
  with_pz m -> (forall i, In i rows -> exists lam z e bins vals, holds simps m i lam z e bins vals) ->
  exists m', correct_rows simps corr_of m rows = Ok m' /\ m_cols m' = m_cols m /\
    (forall i lam z e bins vals, In i rows -> holds simps m i lam z e bins vals ->
       exists z' e' bins' vals', apply_correction simps (corr_of lam) false z e (Some (bins, vals)) = Ok (z', e', Some (bins', vals')) /\
         holds simps m' i lam z' e' bins' vals' /\ simps vals' bins' = 1) /\
    (forall j x, ~ In j rows \/ ~ In x ["z_lambda"; "z_lambda_e"; "pzbins"; "pz"]%string -> m_cell m' j x = m_cell m j x).
Proof. intros simps corr_of rows m A B C. exact (rows_ok simps corr_of rows A B C m). Qed.
Print Assumptions C180_rows.

(** One row, and what the object alone has been given: the values under a name that is not a column. *)
Theorem C180_row : forall simps corr_of m i lam z e bins vals, rhomogeneous simps -> with_pz m -> holds simps m i lam z e bins vals ->
  c_niter (corr_of lam) <> 0%nat ->
  exists m' a z' e' bins' vals', correct_row simps corr_of m i = Ok (m', a) /\
    apply_correction simps (corr_of lam) false z e (Some (bins, vals)) = Ok (z', e', Some (bins', vals')) /\
    holds simps m' i lam z' e' bins' vals' /\ simps vals' bins' = 1 /\ with_pz m' /\
    only_row m m' i ["z_lambda"; "z_lambda_e"; "pzbins"; "pz"]%string.
Proof. exact row_ok. Qed.
Print Assumptions C180_row.
(** Assigning to a column a list of neither one value nor the number of its cell is a ValueError. *)
Theorem C180_assign_error m a i name v : In (lower name) (m_cols m) -> List.length v <> 1%nat -> List.length v <> List.length (m_cell m i (lower name)) -> assign m a i name v = Err ValueError.
Proof.
  intros C N1 N2. unfold assign. destruct (mem_str (lower name) (m_cols m)) eqn:M.
  - cbv zeta. apply Nat.eqb_neq in N2. rewrite N2. destruct v as [|x [|y t]]; [reflexivity|cbn in N1; congruence|reflexivity].
  - exfalso. rewrite (proj2 (mem_str_iff _ _) C) in M. discriminate.
Qed.
Print Assumptions C180_assign_error.

(** A case: the rectangle rule, three points, one step that shifts by 1/10 and adds scatter. *)
Definition rect (ys xs : list R) : R := fold_right Rplus 0 ys * (nth 1 xs 0 - nth 0 xs 0).
Lemma rect_hom : rhomogeneous rect.
Proof.
  intros k ys xs. unfold rect. replace (fold_right Rplus 0 (map (fun y => y / k) ys)) with (fold_right Rplus 0 ys / k).
  - unfold Rdiv. ring.
  - induction ys as [|y r IH]; cbn; [unfold Rdiv; ring|]. rewrite <- IH. unfold Rdiv. ring.
Qed.
Lemma rect_grid n h g : (2 <= n)%nat -> runiform n h g -> nth 1 g 0 - nth 0 g 0 = h.
Proof.
  intros N (Hh & L & a & U). pose proof (U 0%nat (nth 0 g 0)) as A. pose proof (U 1%nat (nth 1 g 0)) as B.
  rewrite A, B; try (apply nth_error_nth'; lia). cbn [INR]. ring.
Qed.
Definition ex_mem : catmem := mkM ["lambda"; "z_lambda"; "z_lambda_e"; "pzbins"; "pz"]%string
  (fun _ x => if String.eqb x "lambda" then [20] else if String.eqb x "z_lambda" then [1/2] else if String.eqb x "z_lambda_e" then [1/100]
              else if String.eqb x "pzbins" then [4/10; 5/10; 6/10] else if String.eqb x "pz" then [1; 5; 4] else []).
Lemma ex_grid : runiform 3 (1/10) [4/10; 5/10; 6/10].
Proof.
  split; [lra|]. split; [reflexivity|]. exists (4/10). intros i x H. destruct i as [|[|[|i]]]; cbn [nth_error] in H.
  - injection H as <-. cbn. lra.
  - injection H as <-. cbn. lra.
  - injection H as <-. cbn. lra.
  - destruct i; discriminate.
Qed.
Lemma ex_mass : positive_mass rect [1; 5; 4].
Proof.
  intros h g U. unfold rect. rewrite (rect_grid 3 h g) by (auto; lia). cbn. destruct U as [Hh _]. nra.
Qed.
Example C180_ex : rhomogeneous rect /\ with_pz ex_mem /\ forall i, holds rect ex_mem i 20 (1/2) (1/100) [4/10; 5/10; 6/10] [1; 5; 4].
Proof.
  split; [exact rect_hom|]. split.
  - split; [intros x I; exact I|]. cbn. intros [?|[?|[?|[?|[?|[]]]]]]; discriminate.
  - intros i. unfold holds. cbn [m_cell ex_mem]. repeat (split; [reflexivity|]). split; [lra|]. split; [cbn; lia|]. split; [reflexivity|].
    split; [exists (1/10); exact ex_grid|exact ex_mass].
Qed.

(** Finding: a caller of apply_correction finds the array of values changed while the array of bins is not: with an extra scatter the two no
    longer are a normalised distribution (in place division, zlambda.py:727). *)
Theorem C180_caller_refuted : forall simps c m i z e bins vals h, rhomogeneous simps -> spacing_scaled simps -> 0 < e ->
  List.length vals = List.length bins -> (2 <= List.length bins)%nat -> runiform (List.length bins) h bins -> positive_mass simps vals ->
  m_cell m i "pz" = vals -> c_niter c <> 0%nat -> c_xe c 0 z <> 0 -> simps vals bins = 1 ->
  exists m' z' e' bins' vals', corr_mem simps c 0 (c_niter c) m i (z, e, bins) = Ok (m', (z', e', bins')) /\
    m_cell m' i "pz" = vals' /\ simps vals' bins' = 1 /\ simps vals' bins < 1.
Proof. intros. eapply caller; eauto. Qed.
Print Assumptions C180_caller_refuted.
Example C180_caller_ex : rhomogeneous rect /\ spacing_scaled rect /\
  rect [1; 5; 4] [4/10; 5/10; 6/10] = 1.
Proof.
  split; [exact rect_hom|]. split.
  - intros ys n h g h' g' N A B. unfold rect. rewrite (rect_grid n h g N A), (rect_grid n h' g' N B). ring.
  - unfold rect. cbn. lra.
Qed.
