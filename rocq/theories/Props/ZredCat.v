(** C142: redshifts of a catalog computed in parallel. *)
From Verif.Base Require Import Py PyLemmas.
From Verif.Model Require Import Chunks ZredCat.
From Verif.Spec Require Import ZredCat.
From Verif.Proofs Require Import Chunks ZredCat.
From Coq Require Import Lia List. Import ListNotations.

(** For every usable chunk size and every assignment of chunks to processes the run succeeds when the redshift of every
    row can be computed, and every row of the output holds the redshift of the row of the input in the same place. *)
Theorem C142_values {Row Val Samp Gen} (Z : zcalc Row Val Samp Gen) rows np nproc mx sched g0 z0 : usable np (length rows) nproc mx ->
  (forall r, In r rows -> exists v, zc_row Z r = Ok v) ->
  exists out, run_catalog Z rows np nproc mx sched g0 z0 = Ok out /\ rowwise (zc_row Z) rows out.
Proof.
  intros U H. destruct (run_ok Z rows np nproc mx sched g0 z0 U H) as (out & E). exists out. split; [exact E|]. destruct (run_spec Z _ _ _ _ _ _ _ _ E) as (cs & rv & _ & W & -> & C). exact (proj1 (work_rows Z rows sched cs _ _ _ _ rv C eq_refl W)).
Qed.
Print Assumptions C142_values.
(** Whatever the chunk size, number of processes and schedule: any two runs that return agree in all redshift columns. *)
Theorem C142_division {Row Val Samp Gen} (Z : zcalc Row Val Samp Gen) rows np1 np2 nproc1 nproc2 mx1 mx2 sched1 sched2 g1 g2 z1 z2 out1 out2 :
  run_catalog Z rows np1 nproc1 mx1 sched1 g1 z1 = Ok out1 -> run_catalog Z rows np2 nproc2 mx2 sched2 g2 z2 = Ok out2 -> map fst out1 = map fst out2.
Proof.
  intros E1 E2. destruct (run_spec Z _ _ _ _ _ _ _ _ E1) as (cs1 & rv1 & _ & W1 & X1 & C1). destruct (run_spec Z _ _ _ _ _ _ _ _ E2) as (cs2 & rv2 & _ & W2 & X2 & C2).
  pose proof (proj1 (work_rows Z rows sched1 cs1 _ _ _ _ rv1 C1 eq_refl W1)) as A. pose proof (proj1 (work_rows Z rows sched2 cs2 _ _ _ _ rv2 C2 eq_refl W2)) as B. rewrite <- X1 in A. rewrite <- X2 in B. cbn [skipn] in A, B. clear -A B.
  revert out2 B. induction A as [|r o rs os E A IH]; intros out2 B; inversion B as [|r' o' rs' os' E' B']; subst; [reflexivity|]. cbn. rewrite (IH _ B'). f_equal. congruence.
Qed.
Print Assumptions C142_division.
(** A row whose redshift raises makes the whole run raise: nothing is written. *)
Theorem C142_fails {Row Val Samp Gen} (Z : zcalc Row Val Samp Gen) rows np nproc mx sched g0 z0 r e : In r rows -> zc_row Z r = Err e ->
  exists e', run_catalog Z rows np nproc mx sched g0 z0 = Err e'.
Proof.
  intros I E. unfold run_catalog. fold (cs_of rows np nproc mx). destruct (cs_of rows np nproc mx) as [cs|e1] eqn:Ec; [|eexists; reflexivity]. cbn [bind].
  destruct (work_err Z rows sched cs _ 0 (fun _ => g0) 0 (cs_consec _ _ _ _ _ Ec) eq_refl (ex_intro _ r (ex_intro _ e (conj I E)))) as (e2 & ->). eexists; reflexivity.
Qed.
Print Assumptions C142_fails.
(** Finding: with the default chunk size a catalog with fewer galaxies than processes cannot be run. *)
Theorem C142_few_refuted {Row Val Samp Gen} (Z : zcalc Row Val Samp Gen) rows nproc mx sched g0 z0 : length rows < nproc ->
  run_catalog Z rows None nproc mx sched g0 z0 = Err ZeroDivisionError.
Proof. intros L. unfold run_catalog. rewrite (few_galaxies _ _ _ L). reflexivity. Qed.
Print Assumptions C142_few_refuted.
(** With one process the samples are those of one generator running through the catalog, whatever the chunk size.  (Missing:
    more than one process, next theorem.) *)
Theorem C142_samples_partial {Row Val Samp Gen} (Z : zcalc Row Val Samp Gen) rows np nproc mx p g0 z0 out :
  run_catalog Z rows np nproc mx (fun _ => p) g0 z0 = Ok out -> map snd out = draws (zc_samp Z) rows g0.
Proof. intros E. destruct (run_spec Z _ _ _ _ _ _ _ _ E) as (cs & rv & _ & W & -> & C). exact (work_one Z rows p cs _ _ _ _ rv C eq_refl W). Qed.
Print Assumptions C142_samples_partial.
(** Finding: the processes inherit the parent's random generator, so the first galaxy of the first chunk of EVERY process is
    sampled with the same random numbers: the redshift samples of different galaxies are not independent. *)
Theorem C142_samples_refuted {Row Val Samp Gen} (Z : zcalc Row Val Samp Gen) rows n nproc mx sched g0 z0 out j : 0 < n ->
  run_catalog Z rows (Some n) nproc mx sched g0 z0 = Ok out -> j * n < length rows -> (forall i, i < j -> sched i <> sched j) ->
  exists r, nth_error rows (j * n) = Some r /\ option_map snd (nth_error out (j * n)) = Some (fst (zc_samp Z r g0)).
Proof.
  intros Hn E L D. destruct (run_spec Z _ _ _ _ _ _ _ _ E) as (cs & rv & Ec & W & -> & C).
  assert (N : nth_error cs j = Some (j * n, Nat.min (j * n + n) (length rows))).
  { cbn in Ec. unfold zred_chunks in Ec. destruct (Nat.eqb_spec n 0); [lia|]. assert (X : cs = map (fun ind => (ind, Nat.min (ind + n) (length rows))) (starts (length rows) n)) by congruence. rewrite X. unfold starts. rewrite !nth_error_map.
    assert (Y : j < (length rows + n - 1) / n). { pose proof (Nat.div_mod (length rows + n - 1) n ltac:(lia)) as DM. pose proof (Nat.mod_upper_bound (length rows + n - 1) n ltac:(lia)) as U. nia. }
    rewrite (nth_error_nth' _ 0) by (rewrite seq_length; exact Y). rewrite seq_nth by exact Y. reflexivity. }
  destruct (work_first Z rows sched cs _ 0 (fun _ => g0) 0 rv j _ _ C eq_refl W N D) as (r & A & B & _). exists r. split; [exact A|]. rewrite Nat.sub_0_r in B. exact B.
Qed.
Print Assumptions C142_samples_refuted.
(** five rows in chunks of two; the generator counts its draws.  Two processes: the draws repeat. *)
Definition C142_calc : zcalc nat nat nat nat := mkZcalc _ _ _ _ (fun r => Ok (10 * r)) (fun r g => (g, S g)).
Example C142_example : run_catalog C142_calc [1; 2; 3; 4; 5] (Some 2) 2 100 (fun k => Nat.modulo k 2) 7 (0, 0) = Ok [(10, 7); (20, 8); (30, 7); (40, 8); (50, 9)] /\
  run_catalog C142_calc [1; 2; 3; 4; 5] None 1 100 (fun _ => 0) 7 (0, 0) = Ok [(10, 7); (20, 8); (30, 9); (40, 10); (50, 11)] /\
  usable (Some 2) 5 2 100 /\ usable None 5 1 100.
Proof. split; [vm_compute; reflexivity|]. split; [vm_compute; reflexivity|]. unfold usable. lia. Qed.
