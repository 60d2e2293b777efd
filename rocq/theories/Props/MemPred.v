(** C147: the memory predicted for tiles. *)
From Coq Require Import QArith String.
From Verif.Base Require Import Py PyLemmas.
From Verif.Model Require Import MemPred.
From Verif.Spec Require Import MemPred.
From Verif.Proofs Require Import MemPred.
From Coq Require Import Lqa Lia List. Import ListNotations.
Local Open Scope Q_scope.

(** Finding: no memory is ever predicted: the tile of each file is looked up with the function for the opposite direction, whose
    third argument is then given twice, and Python refuses the call for every table. *)
Theorem C147_never_refuted angles t include_zreds border : predict_memory angles t include_zreds border = Err TypeError.
Proof. unfold predict_memory, predict, sides. destruct (Z.to_nat (m_nside t)); reflexivity. Qed.
Print Assumptions C147_never_refuted.
(** The sides tried for a catalogue of side 2^k are 2, 4, ..., 2^k. *)
Theorem C147_sides k : (1 <= k)%nat -> sides (2 ^ Z.of_nat k) = map (fun i => 2 ^ Z.of_nat i)%Z (seq 1 k).
Proof.
  intros K. destruct k as [|k]; [lia|]. unfold sides. assert (E : (2 ^ Z.of_nat (S k) = 2 * 2 ^ Z.of_nat k)%Z) by (rewrite Nat2Z.inj_succ, Z.pow_succ_r by lia; reflexivity). rewrite E. rewrite sides_pow; [|lia|].
  - rewrite <- seq_shift, map_map. apply map_ext. intros i. rewrite Nat2Z.inj_succ, Z.pow_succ_r by lia. reflexivity.
  - assert (Z.of_nat k < 2 ^ Z.of_nat k)%Z by (apply Z.pow_gt_lin_r; lia). lia.
Qed.
Print Assumptions C147_sides.
(** A catalogue of side 1 is predicted for side 2 only. *)
Theorem C147_side_one : sides 1 = [2%Z].
Proof. reflexivity. Qed.
Print Assumptions C147_side_one.
(** The size of a galaxy is that of its fields other than the four truth fields, plus that of a redshift row if wanted. *)
Theorem C147_bytes t : (nbytes t true = nbytes t false + m_zbytes t)%Z /\
  (forall f n, In f ["ztrue"; "m200"; "central"; "halo_id"]%string -> nbytes (mkTable (m_nside t) (m_rows t) ((f, n) :: m_fields t) (m_zbytes t)) false = nbytes t false) /\
  (forall f n, ~ In f ["ztrue"; "m200"; "central"; "halo_id"]%string -> nbytes (mkTable (m_nside t) (m_rows t) ((f, n) :: m_fields t) (m_zbytes t)) false = (n + nbytes t false)%Z) /\
  (m_fields t = [] -> nbytes t false = 0%Z).
Proof.
  unfold nbytes. cbn [m_fields m_zbytes]. split; [lia|]. split; [|split].
  - intros f n I. cbn [filter fst]. assert (truth f = true) as -> by (cbn in I; destruct I as [<-|[<-|[<-|[<-|[]]]]]; reflexivity). reflexivity.
  - intros f n N. cbn [filter fst]. destruct (truth f) eqn:T; [|unfold zsum; cbn [negb map snd fold_right]; lia]. exfalso. unfold truth in T. apply existsb_exists in T. destruct T as (x & I & E). apply String.eqb_eq in E. subst. exact (N I).
  - intros ->. reflexivity.
Qed.
Print Assumptions C147_bytes.
(** With the lookup of tiles that is meant (tile n pix), each side gets the number of its tiles with galaxies and the largest memory
    of a tile, times the border factor.  (Missing: the lookup in the code fails, see C147_never_refuted.) *)
Theorem C147_largest_partial tile t include_zreds border : sane t -> 0 <= border ->
  exists out, predict (fun n pix => Ok (map (tile n) pix)) t include_zreds border = Ok out /\
  Forall2 (fun n r => fst r = n /\ largest (tile n) (m_rows t) (nbytes t include_zreds) border (fst (snd r)) (snd (snd r))) (sides (m_nside t)) out.
Proof.
  intros S B. pose proof (nbytes_nonneg t include_zreds S) as NB. destruct S as (NE & NG & _). set (b := nbytes t include_zreds) in *.
  unfold predict. destruct (gather_ok (fun n => do tiles <- Ok (map (tile n) (map fst (m_rows t))); do r <- predict_one tiles (tab_mb t include_zreds) border; Ok (n, r)) (sides (m_nside t))) as (out & E & F).
  { intros n _. cbn [bind]. unfold predict_one. destruct (m_rows t); [congruence|]. cbn [map bind]. eexists. reflexivity. }
  exists out. split; [exact E|]. clear E. induction F as [|n r ns rs E F IH]; [constructor|]. constructor; [|exact IH]. cbn [bind] in E. unfold predict_one in E.
  set (tiles := map (tile n) (map fst (m_rows t))) in *.
  assert (E' : r = (n, (Z.of_nat (List.length (nodup Z.eq_dec tiles)), fold_left (fun m p => let x := tile_sum tiles (tab_mb t include_zreds) p * border in if Qlt_bool m x then x else m) (nodup Z.eq_dec tiles) 0))).
  { assert (TN : tiles <> []) by (unfold tiles; intros T; apply map_eq_nil, map_eq_nil in T; exact (NE T)). clearbody tiles. destruct tiles as [|a l]; [congruence|]. cbv zeta in E |- *. cbn [bind] in E. congruence. }
  subst r. cbn [fst snd]. split; [reflexivity|]. pose proof (maxloop (fun p => tile_sum tiles (tab_mb t include_zreds) p * border) (nodup Z.eq_dec tiles) 0) as M. cbv zeta in M |- *. destruct M as (M0 & M1 & M2).
  set (mx := fold_left _ _ 0) in *. clearbody mx.
  assert (IT : forall p, In p (nodup Z.eq_dec tiles) <-> exists r, In r (m_rows t) /\ tile n (fst r) = p).
  { intros p. rewrite nodup_In. unfold tiles. rewrite map_map, in_map_iff. split; intros (r & A & C); exists r; tauto. }
  assert (TS : forall p, tile_sum tiles (tab_mb t include_zreds) p == inject_Z (galaxies_in (tile n) (m_rows t) p * b) / 1000000) by (intros p; apply tile_sum_eq).
  assert (GN : forall p, 0 <= inject_Z (galaxies_in (tile n) (m_rows t) p * b) / 1000000 * border).
  { intros p. apply Qmult_le_0_compat; [|exact B]. apply Qle_shift_div_l; [reflexivity|]. rewrite Qmult_0_l. change 0 with (inject_Z 0). rewrite <- Zle_Qle. apply Z.mul_nonneg_nonneg; [|exact NB]. apply zsum_nonneg. intros x I. apply in_map_iff in I. destruct I as (r & <- & I). apply filter_In in I. apply NG, I. }
  split; [|split].
  - exists (nodup Z.eq_dec tiles). split; [apply NoDup_nodup|]. split; [exact IT|reflexivity].
  - intros r I. rewrite <- TS. apply M1. apply IT. exists r. auto.
  - destruct M2 as [M2|(p & I & M2)].
    + destruct (m_rows t) as [|r0 t0] eqn:ER; [congruence|]. exists r0. split; [left; reflexivity|]. subst mx. apply Qle_antisym; [apply GN|]. rewrite <- TS. apply M1, IT. exists r0. split; [left; reflexivity|reflexivity].
    + apply IT in I. destruct I as (r & I & <-). exists r. split; [exact I|]. rewrite M2, TS. reflexivity.
Qed.
Print Assumptions C147_largest_partial.
(** Finer tiles never need more memory: if each fine tile lies in one coarse tile, the largest memory does not grow. *)
Theorem C147_finer coarse fine parent rows bytes border n1 m1 n2 m2 : (forall p, coarse p = parent (fine p)) -> (forall r, In r rows -> (0 <= snd r)%Z) -> (0 <= bytes)%Z -> 0 <= border ->
  largest coarse rows bytes border n1 m1 -> largest fine rows bytes border n2 m2 -> m2 <= m1.
Proof.
  intros P G NB B (_ & U & _) (_ & _ & r & I & E). rewrite E. eapply Qle_trans; [|exact (U r I)]. apply Qmult_le_compat_r; [|exact B]. unfold Qdiv. apply Qmult_le_compat_r; [|discriminate]. rewrite <- Zle_Qle. apply Z.mul_le_mono_nonneg_r; [exact NB|]. apply zsum_filter_le; [exact G|]. intros x J X. apply Z.eqb_eq in X. apply Z.eqb_eq. rewrite !P. congruence.
Qed.
Print Assumptions C147_finer.
Definition C147_t : table := mkTable 4 [(0, 100); (1, 300); (5, 200)]%Z [("ra", 8); ("dec", 8); ("ztrue", 4)]%string%Z 4.
Example C147_example : sane C147_t /\ nbytes C147_t true = 20%Z /\
  exists m1 m2, predict (fun n pix => Ok (map (fun p => p / (if Z.eqb n 2 then 4 else 1))%Z pix)) C147_t true 2 = Ok [(2, (2, m1)); (4, (3, m2))]%Z /\ m1 == 16 # 1000 /\ m2 == 12 # 1000.
Proof.
  split. { split; [discriminate|]. cbn. split; [|split; [|lia]]; intros r H; repeat destruct H as [<-|H]; cbn; try lia; destruct H. }
  split; [reflexivity|]. do 2 eexists. split; [vm_compute; reflexivity|]. split; reflexivity.
Qed.
(** The calls of the method: the first is accepted, the second gives the argument lonlat or nest twice and is not; without the third
    positional argument it would be accepted, whatever is given by name. *)
Theorem C147_calls_refuted : call91 = Ok tt /\ call94 = Err TypeError /\
  (forall kws, (forall k, In k kws -> In k ["nest"; "lonlat"; "degrees"]%string) -> binds pixel_to_angle_params 2 kws = Ok tt) /\
  (forall kws, In "nest"%string kws -> binds pixel_to_angle_params 3 kws = Err TypeError).
Proof.
  split; [reflexivity|]. split; [reflexivity|]. split; intros kws H; unfold binds; cbn [List.length pixel_to_angle_params Nat.ltb Nat.leb skipn].
  - destruct (forallb _ kws) eqn:E; [reflexivity|]. exfalso. enough (forallb (fun k => existsb (String.eqb k) ["nest"; "lonlat"; "degrees"]%string) kws = true) by congruence.
    apply forallb_forall. intros k Hk. apply existsb_exists. exists k. split; [apply H, Hk|apply String.eqb_refl].
  - destruct (forallb _ kws) eqn:E; [|reflexivity]. exfalso. pose proof (proj1 (forallb_forall _ kws) E _ H) as X. discriminate X.
Qed.
Print Assumptions C147_calls_refuted.

(** With no galaxy file listed there is nothing to sum and the prediction stops, whatever the sides. *)
Theorem C147_empty tile t include_zreds border : m_rows t = [] -> predict (fun n pix => Ok (map (tile n) pix)) t include_zreds border = Err ValueError.
Proof. intros E. unfold predict. rewrite E. unfold sides. destruct (Z.to_nat (m_nside t)); reflexivity. Qed.
Print Assumptions C147_empty.
