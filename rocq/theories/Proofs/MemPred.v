From Coq Require Import QArith String.
From Verif.Base Require Import Py PyLemmas.
From Verif.Model Require Import MemPred.
From Verif.Spec Require Import MemPred.
From Coq Require Import Lqa Lia List. Import ListNotations.
Local Open Scope Q_scope.

Lemma sides_pow k : forall fuel last, (0 < last)%Z -> (k <= fuel)%nat -> sides_from fuel (last * 2 ^ Z.of_nat k) last = map (fun i => last * 2 ^ Z.of_nat i)%Z (seq 0 (S k)).
Proof.
  induction k as [|k IH]; intros fuel last P F.
  - cbn [seq map]. replace (last * 2 ^ Z.of_nat 0)%Z with last by (cbn; lia). destruct fuel; cbn; [reflexivity|]. rewrite Z.ltb_irrefl. reflexivity.
  - destruct fuel as [|f]; [lia|]. assert (Pk : (0 < 2 ^ Z.of_nat k)%Z) by (apply Z.pow_pos_nonneg; lia). assert (E : (last * 2 ^ Z.of_nat (S k) = 2 * last * 2 ^ Z.of_nat k)%Z) by (rewrite Nat2Z.inj_succ, Z.pow_succ_r by lia; lia).
    cbn [sides_from]. rewrite E. destruct (Z.ltb_spec last (2 * last * 2 ^ Z.of_nat k)); [|nia]. rewrite IH by lia. change (seq 0 (S (S k))) with (0%nat :: seq 1 (S k)). cbn [map]. f_equal; [cbn; lia|]. rewrite <- seq_shift, map_map. apply map_ext. intros i. rewrite Nat2Z.inj_succ, Z.pow_succ_r by lia. lia.
Qed.
Lemma gather_ok {A B} (f : A -> res B) l : (forall x, In x l -> exists y, f x = Ok y) -> exists r, gather f l = Ok r /\ Forall2 (fun x y => f x = Ok y) l r.
Proof.
  induction l as [|x t IH]; intros H; [exists []; split; [reflexivity|constructor]|]. cbn. destruct (H x (or_introl eq_refl)) as (y & E). destruct IH as (r & Er & F); [intros; apply H; right; assumption|]. rewrite E. cbn. rewrite Er. cbn. eexists. split; [reflexivity|]. constructor; assumption.
Qed.
Lemma maxloop (g : Z -> Q) l : forall m0, let m := fold_left (fun m p => let x := g p in if Qlt_bool m x then x else m) l m0 in
  m0 <= m /\ (forall p, In p l -> g p <= m) /\ (m = m0 \/ exists p, In p l /\ m = g p).
Proof.
  induction l as [|a t IH]; intros m0 m; [split; [apply Qle_refl|]; split; [intros p []|left; reflexivity]|]. cbn in m. cbv zeta in IH.
  destruct (Qlt_bool m0 (g a)) eqn:E.
  - destruct (IH (g a)) as (I1 & I2 & I3). apply Qlt_bool_iff in E. split; [unfold m; lra|]. split; [intros p [<-|I]; [exact I1|apply I2, I]|]. right. destruct I3 as [I3|(p & I & I3)]; [exists a|exists p]; split; try (left; reflexivity); try (right; exact I); exact I3.
  - destruct (IH m0) as (I1 & I2 & I3). apply Qlt_bool_false in E. split; [exact I1|]. split; [intros p [<-|I]; [unfold m; lra|apply I2, I]|]. destruct I3 as [I3|(p & I & I3)]; [left; exact I3|right; exists p; split; [right; exact I|exact I3]].
Qed.
Lemma injsum (l : list Z) b : Qsum (map (fun x => inject_Z (x * b) / 1000000) l) == inject_Z (zsum l * b) / 1000000.
Proof.
  induction l as [|x t IH]; [reflexivity|]. cbn [map Qsum fold_right]. change (fold_right Qplus 0 (map (fun x0 => inject_Z (x0 * b) / 1000000) t)) with (Qsum (map (fun x0 => inject_Z (x0 * b) / 1000000) t)). rewrite IH. cbn [zsum fold_right]. change (fold_right Z.add 0%Z t) with (zsum t). rewrite Z.mul_add_distr_r, inject_Z_plus. field.
Qed.
Lemma tile_sum_eq (tile : Z -> Z) rows b p : tile_sum (map tile (map fst rows)) (map (fun r : Z * Z => inject_Z (snd r * b) / 1000000) rows) p == inject_Z (galaxies_in tile rows p * b) / 1000000.
Proof.
  unfold tile_sum, galaxies_in. rewrite <- injsum. assert (E : map snd (filter (fun x : Z * Q => Z.eqb (fst x) p) (combine (map tile (map fst rows)) (map (fun r : Z * Z => inject_Z (snd r * b) / 1000000) rows))) = map (fun x => inject_Z (x * b) / 1000000) (map snd (filter (fun r => Z.eqb (tile (fst r)) p) rows))).
  { induction rows as [|r t IH]; [reflexivity|]. cbn. destruct (Z.eqb (tile (fst r)) p); cbn; [f_equal|]; exact IH. }
  rewrite E. reflexivity.
Qed.
Lemma zsum_nonneg l : (forall x, In x l -> (0 <= x)%Z) -> (0 <= zsum l)%Z.
Proof. induction l as [|x t IH]; intros H; [cbn; lia|]. cbn. specialize (IH (fun y I => H y (or_intror I))). pose proof (H x (or_introl eq_refl)). unfold zsum in IH. lia. Qed.
Lemma nbytes_nonneg t z : sane t -> (0 <= nbytes t z)%Z.
Proof.
  intros (_ & _ & F & Z0). unfold nbytes. assert (0 <= zsum (map snd (filter (fun f => negb (truth (fst f))) (m_fields t))))%Z; [|destruct z; lia]. apply zsum_nonneg. intros x I. apply in_map_iff in I. destruct I as (f & <- & I). apply filter_In in I. apply F, I.
Qed.
Lemma zsum_filter_le {A} (g : A -> Z) (p q : A -> bool) l : (forall x, In x l -> (0 <= g x)%Z) -> (forall x, In x l -> p x = true -> q x = true) -> (zsum (map g (filter p l)) <= zsum (map g (filter q l)))%Z.
Proof.
  induction l as [|x t IH]; intros G H; [cbn; lia|]. specialize (IH (fun y I => G y (or_intror I)) (fun y I => H y (or_intror I))). pose proof (G x (or_introl eq_refl)). cbn. pose proof (H x (or_introl eq_refl)) as Hx. unfold zsum in *. destruct (p x), (q x); cbn; try lia; try (specialize (Hx eq_refl); discriminate Hx).
Qed.
