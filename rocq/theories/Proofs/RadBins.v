From Coq Require Import Reals Lra Lia.
From Verif.Base Require Import Py PyLemmas.
From Verif.Model Require Import RadBins.
From Verif.Spec Require Import RadBins.
From Verif.Proofs Require Import Radii.
From Coq Require Import List. Import ListNotations.
Local Open Scope R_scope.

Lemma floor_le x : IZR (floorR x) <= x < IZR (floorR x) + 1.
Proof. unfold floorR. destruct (base_Int_part x). lra. Qed.
Lemma ceil_le x : x <= IZR (ceilR x) < x + 1.
Proof. unfold ceilR. rewrite opp_IZR. pose proof (floor_le (- x)). lra. Qed.
Lemma radbins_nth r0 beta step i : (i < Z.to_nat (nradbins r0 beta step))%nat -> nth_error (radbins r0 beta step) i = Some (INR i * step + minrad r0 beta).
Proof.
  intros H. unfold radbins. rewrite nth_error_map. rewrite (nth_error_nth' _ 0%nat) by (rewrite seq_length; exact H). rewrite seq_nth by exact H. reflexivity.
Qed.
Lemma radbins_len r0 beta step : length (radbins r0 beta step) = Z.to_nat (nradbins r0 beta step).
Proof. unfold radbins. rewrite map_length, seq_length. reflexivity. Qed.
Lemma min_le r0 beta : minrad r0 beta <= r0 * Rpower (3 / 100) beta /\ minrad r0 beta <= 5 / 10.
Proof.
  unfold minrad. pose proof (floor_le (10 * r0 * Rpower (3 / 100) beta)) as F. split; [|apply Rmin_r]. eapply Rle_trans; [apply Rmin_l|]. lra.
Qed.
Lemma max_ge r0 beta : r0 * Rpower 3 beta <= maxrad r0 beta < r0 * Rpower 3 beta + / 10.
Proof. unfold maxrad. replace (300 / 100) with 3 by lra. pose proof (ceil_le (10 * r0 * Rpower 3 beta)). lra. Qed.
Lemma grid_bracket m step n x : 0 < step -> m <= x -> x <= INR n * step + m -> (0 < n)%nat -> exists i, (i < n)%nat /\ INR i * step + m <= x <= INR (S i) * step + m.
Proof.
  intros P L. induction n as [|n IH]; intros U N; [lia|]. destruct (Rle_dec x (INR n * step + m)) as [H|H].
  - destruct n as [|n]; [exists 0%nat; split; [lia|]; cbn [INR] in *; lra|]. destruct (IH H ltac:(lia)) as (i & I & B). exists i. split; [lia|exact B].
  - exists n. split; [lia|]. lra.
Qed.
Lemma nrad_pos r0 beta step : 0 < r0 -> 0 <= beta -> 0 < step -> (2 <= nradbins r0 beta step)%Z \/ minrad r0 beta = maxrad r0 beta.
Proof.
  intros R0 B P. unfold nradbins. pose proof (min_le r0 beta) as [M _]. pose proof (max_ge r0 beta) as [X _]. assert (Rpower (3/100) beta <= Rpower 3 beta) by (apply pow_le; lra).
  assert (minrad r0 beta <= maxrad r0 beta) by (pose proof (Rmult_le_compat_l r0 _ _ ltac:(lra) H); lra). destruct (Req_dec (minrad r0 beta) (maxrad r0 beta)) as [E|E]; [right; exact E|left].
  assert (0 < (maxrad r0 beta - minrad r0 beta) / step) by (apply Rdiv_lt_0_compat; lra). pose proof (ceil_le ((maxrad r0 beta - minrad r0 beta) / step)) as [C _]. assert (0 < ceilR ((maxrad r0 beta - minrad r0 beta) / step))%Z by (apply lt_IZR; lra). lia.
Qed.
Lemma pow2_sum r phi : Rsqr (r * cos phi) + Rsqr (r * sin phi) = Rsqr r.
Proof. rewrite !Rsqr_mult. pose proof (sin2_cos2 phi) as S. replace (r² * (cos phi)² + r² * (sin phi)²) with (r² * ((sin phi)² + (cos phi)²)) by ring. rewrite S. ring. Qed.
