(** C159, C160: masks and redshift corrections which are loaded. *)
From Coq Require Import QArith Qround ZArith String.
From Verif.Base Require Import Py PyLemmas.
From Verif.Model Require Import SubPix MaskLoad BkgTable.
From Verif.Spec Require Import MaskLoad SubPix.
From Verif.Proofs Require Import MaskLoad.
From Verif.Props Require SubPix.
From Coq Require Import Lqa Lia List. Import ListNotations.
Local Open Scope Q_scope.

(** A run in mode 3 with a healsparse mask keeps, in its region, exactly the galaxies the mask lets survive.  (Partial: with a region given
    as a list of pixels; the maker of galaxies gives none, C159_maker_refuted, and other modes have no mask, C159_mode_refuted.) *)
Theorem C159_mask_partial L D cov m c hpix s gals : mc_mode c = 3%Z -> mc_hpix c = HList hpix -> mc_order c = Some s -> (s <= D)%nat -> (cov <= D)%nat ->
  (mc_border c = true -> exists h, hpix = [h]) -> (hpix = [] \/ Forall (fun g => in_region (l_r2n L) D s hpix (fst g)) gals) ->
  exists mk, get_mask L (Sparse D cov m) c = Ok (Some mk) /\ (forall g, In g (masked (Some mk) gals) <-> In g gals /\ survives m g).
Proof.
  intros M H O Hs Hc B R. unfold get_mask. rewrite M. change ((3 =? 0)%Z) with false. change ((3 =? 3)%Z) with true. cbv iota. unfold read_sparse. rewrite H, O.
  assert (P : exists pix, region_pixels (l_r2n L) (Some s) hpix (mc_border c) cov (l_near L) = Ok pix /\ forall g, In g gals -> read_map D cov pix m (fst g) = m (fst g)).
  { destruct R as [->|R]; [exists None; split; reflexivity|].
    destruct (region_pixels (l_r2n L) (Some s) hpix (mc_border c) cov (l_near L)) as [pix|e] eqn:E.
    - exists pix. split; [reflexivity|]. intros g I. rewrite Forall_forall in R. destruct (SubPix.C131_region (l_r2n L) D s cov hpix (mc_border c) (l_near L) m (fst g) Hs Hc B (R g I)) as (pix' & E' & V). congruence.
    - destruct hpix as [|h t]; [discriminate|]. unfold region_pixels, subpix in E. destruct (mc_border c); [|discriminate]. destruct (B eq_refl) as [h' [= -> ->]]. cbn in E. discriminate. }
  destruct P as (pix & E & V). rewrite E. cbn [bind]. eexists. split; [reflexivity|]. intros g. cbn [masked]. rewrite filter_In, keep_iff.
  split; intros [I S]; (split; [exact I|]); unfold survives in *; rewrite V in *; assumption.
Qed.
Print Assumptions C159_mask_partial.
(** A mask which is not there or has another format is an error in mode 3. *)
Theorem C159_file L c : mc_mode c = 3%Z -> get_mask L Absent c = Err OSError /\ get_mask L Foreign c = Err RuntimeError.
Proof. intros M. unfold get_mask. rewrite M. split; reflexivity. Qed.
Print Assumptions C159_file.
(** Finding: a mask given to the maker of galaxies is never applied.  In mode 3 the construction always fails, at the latest with a
    TypeError, as the stand-in for the configuration has a number for the list of pixels; in every other mode, also in the default one,
    all galaxies are kept. *)
Theorem C159_maker_refuted L f mode : (mode = 3%Z -> exists e, maker_mask L (Some f) mode = Err e /\ (forall D cov m, f = Sparse D cov m -> e = TypeError)) /\
  (mode <> 3%Z -> exists mk, maker_mask L (Some f) mode = Ok mk /\ forall gals, masked mk gals = gals).
Proof.
  unfold maker_mask, get_mask, fake, read_sparse. cbn [mc_mode mc_hpix]. split.
  - intros ->. destruct f; cbn; eexists; (split; [reflexivity|]); intros; try discriminate; reflexivity.
  - intros N. destruct (mode =? 0)%Z eqn:Z0; [|destruct (mode =? 3)%Z eqn:Z3; [apply Z.eqb_eq in Z3; contradiction|]]; eexists; (split; [reflexivity|]); intros gals; cbn; [|reflexivity].
    induction gals as [|g t IH]; cbn; [reflexivity|]. f_equal. exact IH.
Qed.
Print Assumptions C159_maker_refuted.
(** Without a mask the maker keeps all galaxies. *)
Theorem C159_none L mode gals : exists mk, maker_mask L None mode = Ok mk /\ masked mk gals = gals.
Proof. exists None. split; reflexivity. Qed.
Print Assumptions C159_none.
(** A configuration with a mask file in mode 0 is refused; so a run in mode 0 has no mask file. *)
Theorem C159_config f mode : check_mask f mode = Ok tt <-> (f = None \/ mode <> 0%Z).
Proof.
  unfold check_mask. destruct f as [x|]; [|split; [left; reflexivity|reflexivity]]. destruct (mode =? 0)%Z eqn:E.
  - apply Z.eqb_eq in E as ->. split; [discriminate|intros [H|H]; [discriminate|congruence]].
  - apply Z.eqb_neq in E. split; [right; exact E|reflexivity].
Qed.
Print Assumptions C159_config.
(** Finding: any other mode passes the check of the configuration, and there is no mask at all: nothing is returned, neither an object nor
    an error. *)
Theorem C159_mode_refuted L f c : mc_mode c <> 0%Z -> mc_mode c <> 3%Z -> check_mask (Some f) (mc_mode c) = Ok tt /\ get_mask L f c = Ok None.
Proof.
  intros N0 N3. apply Z.eqb_neq in N0, N3. unfold check_mask, get_mask. rewrite N0, N3. split; reflexivity.
Qed.
Print Assumptions C159_mode_refuted.
Example C159_example : let m := fun p => if (p =? 3)%nat then Some (1 # 2) else None in let L := mkLib (fun _ h => h) (fun _ => []) in
  (exists mk, get_mask L (Sparse 3 1 m) (mkConf 3 (HList []) (Some 1%nat) false) = Ok (Some mk) /\ masked (Some mk) [(3%nat, 1 # 4); (3%nat, 3 # 4); (5%nat, 0)] = [(3%nat, 1 # 4)]) /\
  maker_mask L (Some (Sparse 3 1 m)) 3 = Err TypeError /\ maker_mask L (Some (Sparse 3 1 m)) 0 = Ok (Some Bare).
Proof. split; [eexists; split; reflexivity|split; reflexivity]. Qed.

(** When a correction can be set up: from a file which exists, or from parameters with the range, the size of the bins and the pivot. *)
Theorem C160_source spl s zr bin piv : (exists t, zcorr_init spl s zr bin piv = Ok t) <->
  (exists h p, s = FromFile true h p) \/ ((exists p, s = FromPars p) /\ zr <> None /\ bin <> None /\ piv <> None).
Proof.
  split.
  - intros [t E]. destruct s as [[|] h p|p|]; cbn in E; try discriminate; [left; eauto|right]. destruct zr as [[a b]|], bin, piv; try discriminate. repeat split; try discriminate. eauto.
  - intros [(h & p & ->)|([p ->] & A & B & C)]; cbn.
    + destruct (or_else zr _) as [z0 z1]. eauto.
    + destruct zr as [[z0 z1]|]; [|congruence]. destruct bin; [|congruence]. destruct piv; [|congruence]. eauto.
Qed.
Print Assumptions C160_source.
(** Values of the caller go before those of the file. *)
Theorem C160_header spl h p zr bin piv t : zcorr_init spl (FromFile true h p) zr bin piv = Ok t ->
  (t_z0 t, t_z1 t) = match zr with Some r => r | None => (h_z0 h, h_z1 h) end /\ t_bin t = match bin with Some b => b | None => h_bin h end /\
  t_piv t = match piv with Some v => v | None => h_piv h end.
Proof. cbn. destruct zr as [[a b]|]; cbn; intros E; injection E as <-; cbn; (split; [reflexivity|]); split; [destruct bin|destruct piv|destruct bin|destruct piv]; reflexivity. Qed.
Print Assumptions C160_header.
(** The redshifts of the table: equally spaced from the start of the range, and within half a bin as many as the range has. *)
Theorem C160_grid spl z0 z1 bin piv p : let t := make_tab spl z0 z1 bin piv p in 0 < bin -> z0 <= z1 ->
  (forall i z, nth_error (t_z t) i = Some z -> z == z0 + inject_Z (Z.of_nat i) * bin) /\
  (let n := inject_Z (Z.of_nat (length (t_z t))) in z0 + (n - (1 # 2)) * bin <= z1 /\ z1 <= z0 + (n + (1 # 2)) * bin).
Proof.
  intros t B Z. unfold t, make_tab. cbn [t_z]. split.
  - intros i z E. assert (I : (i < Z.to_nat (np_round ((z1 - z0) / bin)))%nat) by (rewrite <- (seq_length (Z.to_nat (np_round ((z1 - z0) / bin))) 0), <- (map_length (fun i => bin * inject_Z (Z.of_nat i) + z0)); apply nth_error_Some; congruence).
    rewrite nth_error_map, (nth_error_nth' _ 0%nat) in E by (rewrite seq_length; exact I). rewrite seq_nth in E by exact I. cbn in E. injection E as <-. ring.
  - rewrite map_length, seq_length. set (x := (z1 - z0) / bin). assert (X0 : 0 <= x) by (apply Qle_shift_div_l; lra).
    destruct (round_near x) as [A C]. assert (N : (0 <= np_round x)%Z).
    { rewrite Zle_Qle. change (inject_Z 0) with 0. destruct (Qlt_le_dec (inject_Z (np_round x)) 0) as [H|H]; [|exact H]. exfalso.
      assert ((np_round x <= -1)%Z) by (change (inject_Z (np_round x) < inject_Z 0) in H; rewrite <- Zlt_Qlt in H; lia). rewrite Zle_Qle in H0. change (inject_Z (-1)) with (-(1)) in H0. lra. }
    rewrite Z2Nat.id by exact N. assert (E : z1 == z0 + x * bin) by (unfold x; field; lra). rewrite E.
    split; apply Qplus_le_r; apply Qmult_le_compat_r; lra.
Qed.
Print Assumptions C160_grid.
(** Every iteration has its own tables, as many as the file says (one if it says nothing), with a value for each redshift: the splines of
    that iteration; the scatter is that of the spline, at least 0.001. *)
Theorem C160_tables spl z0 z1 bin piv p i k z : let t := make_tab spl z0 z1 bin piv p in
  nth_error (t_z t) k = Some z -> (i < match p_niter p with Some n => n | None => 1 end)%nat ->
  (exists r, nth_error (t_off t) i = Some r /\ nth_error r k = Some (spl (p_offz p) (p_off p i) z)) /\
  (exists r, nth_error (t_slope t) i = Some r /\ nth_error r k = Some (spl (p_slopez p) (p_slope p i) z)) /\
  (exists r s, nth_error (t_scat t) i = Some r /\ nth_error r k = Some s /\ 1 # 1000 <= s /\ (1 # 1000 <= spl (p_slopez p) (p_scat p i) z -> s == spl (p_slopez p) (p_scat p i) z)
     /\ (spl (p_slopez p) (p_scat p i) z <= 1 # 1000 -> s == 1 # 1000)) /\
  nth_error (t_unc t) k = Some (spl (p_offz p) (p_unc p) z) /\ length (t_off t) = match p_niter p with Some n => n | None => 1%nat end.
Proof.
  intros t E I. assert (G : forall f : nat -> list Q, nth_error (map f (seq 0 (match p_niter p with Some n => n | None => 1%nat end))) i = Some (f i)).
  { intros f. rewrite nth_error_map, (nth_error_nth' _ 0%nat) by (rewrite seq_length; exact I). rewrite seq_nth by exact I. reflexivity. }
  unfold t, make_tab in *. cbn [t_z t_off t_slope t_scat t_unc] in *. split; [|split; [|split; [|split]]].
  - rewrite G. eexists. split; [reflexivity|]. rewrite nth_error_map, E. reflexivity.
  - rewrite G. eexists. split; [reflexivity|]. rewrite nth_error_map, E. reflexivity.
  - rewrite G. eexists. eexists. split; [reflexivity|]. rewrite nth_error_map, E. split; [reflexivity|]. unfold Qmax2. destruct (Qle_bool _ _) eqn:Q.
    + apply Qle_bool_iff in Q. repeat split; intros; lra.
    + assert (~ spl (p_slopez p) (p_scat p i) z <= 1 # 1000) by (intros H; apply Qle_bool_iff in H; congruence). repeat split; intros; lra.
  - rewrite nth_error_map, E. reflexivity.
  - rewrite map_length, seq_length. reflexivity.
Qed.
Print Assumptions C160_tables.
(** A redshift counts as extrapolated exactly if it is below the first or above the last node of the offsets. *)
Theorem C160_extrapolated spl z0 z1 bin piv p k z : let t := make_tab spl z0 z1 bin piv p in nth_error (t_z t) k = Some z ->
  exists b, nth_error (t_extra t) k = Some b /\ (b = true <-> z < nth 0 (p_offz p) 0 \/ last (p_offz p) 0 < z).
Proof.
  intros t E. unfold t, make_tab in *. cbn [t_z t_extra] in *. rewrite nth_error_map, E. eexists. split; [reflexivity|]. unfold outside, last_of. rewrite Bool.orb_true_iff, !Qlt_bool_iff. tauto.
Qed.
Print Assumptions C160_extrapolated.
(** Finding: the end of the range is not in the table: for a range of whole bins the last redshift is one bin below the end, and every
    value interpolated in the last bin of the range is that of the last redshift, instead of the spline. *)
Theorem C160_end_refuted spl z0 z1 bin piv p n f : let t := make_tab spl z0 z1 bin piv p in whole z0 z1 bin (S n) ->
  (forall z, In z (t_z t) -> z <= z1 - bin) /\ length (t_z t) = S n /\
  (forall z, z1 - bin < z -> exists zl v, np_interp z (t_z t) (map f (t_z t)) = Ok v /\ nth_error (t_z t) n = Some zl /\ zl == z1 - bin /\ v = f zl).
Proof.
  intros t W. unfold t, make_tab. cbn [t_z]. rewrite (whole_round _ _ _ _ W), Nat2Z.id. destruct W as [B W]. set (g := fun i => bin * inject_Z (Z.of_nat i) + z0).
  assert (S1 : inject_Z (Z.of_nat (S n)) == inject_Z (Z.of_nat n) + 1). { change 1 with (inject_Z 1). rewrite <- inject_Z_plus. apply inject_Z_injective. lia. }
  assert (Le : forall i, (i < S n)%nat -> g i <= z1 - bin).
  { intros i H. pose proof (injn_lt i (S n) H) as X. unfold g. assert (z1 == z0 + bin * inject_Z (Z.of_nat (S n))) by lra. rewrite H0. assert (bin * (inject_Z (Z.of_nat i) + 1) <= bin * inject_Z (Z.of_nat (S n))) by (apply Qmult_le_l; assumption). lra. }
  split; [|split; [rewrite map_length; apply seq_length|]].
  - intros z I. apply in_map_iff in I as (i & <- & I). apply in_seq in I. apply Le. lia.
  - intros z Hz. exists (g n), (f (g n)). rewrite nth_error_map, (nth_error_nth' _ 0%nat) by (rewrite seq_length; lia). rewrite seq_nth by lia. cbn [Nat.add option_map]. split; [|split; [reflexivity|split; [|reflexivity]]].
    + rewrite map_map. unfold np_interp. cbn [seq map combine]. assert (Q0 : Qle_bool z (g 0%nat) = false).
      { apply Bool.not_true_iff_false. rewrite Qle_bool_iff. pose proof (Le 0%nat ltac:(lia)). lra. }
      rewrite Q0. f_equal. assert (C : forall l, combine (map g l) (map (fun x => f (g x)) l) = map (fun i => (g i, f (g i))) l) by (intros l; induction l as [|a l IH]; cbn; congruence).
      rewrite C. rewrite interp_beyond.
      * change (g 0%nat, f (g 0%nat)) with ((fun i => (g i, f (g i))) 0%nat). rewrite last_map. cbn [snd].
        assert (X : last (seq 1 n) 0%nat = n). { destruct n as [|n]; [reflexivity|]. rewrite seq_S, last_last. reflexivity. } rewrite X. reflexivity.
      * intros x1 f1 I. apply in_map_iff in I as (i & E & I). injection E as <- <-. apply in_seq in I. pose proof (Le i ltac:(lia)). lra.
    + unfold g. rewrite S1 in W. assert (z1 == z0 + bin * (inject_Z (Z.of_nat n) + 1)) by lra. rewrite H. ring.
Qed.
Print Assumptions C160_end_refuted.
(** What the run uses is the table which was read, with the pivot of the configuration.  (Partial: only if it can be read.) *)
Theorem C160_run_partial spl h p piv : exists t, runner_corr spl (FromFile true h p) piv = Some t /\ t_piv t = piv /\ t_z0 t = h_z0 h /\ t_z1 t = h_z1 h /\ t_bin t = h_bin h.
Proof. eexists. repeat split. Qed.
Print Assumptions C160_run_partial.
(** Finding: a correction or a depth map which is configured and cannot be read is left out without any message: the redshifts stay
    uncorrected, and the run goes on as for a survey without a depth map. *)
Theorem C160_run_refuted spl h p piv L c : runner_corr spl (FromFile false h p) piv = None /\ runner_corr spl Nothing piv = None /\
  runner_depth L Absent c = None /\ runner_depth L Foreign c = None /\
  (forall D cov m h1 h2 t, mc_hpix c = HList (h1 :: h2 :: t) -> mc_border c = true -> runner_depth L (Sparse D cov m) c = None).
Proof. repeat split. intros D cov m h1 h2 t H B. unfold runner_depth, read_sparse. rewrite H, B. reflexivity. Qed.
Print Assumptions C160_run_refuted.
Example C160_example : let p := mkPars None [1 # 10; 9 # 10] (fun _ => [0; 1]) [1 # 10] (fun _ => [0]) (fun _ => [0]) [0; 1] in
  exists t, zcorr_init (fun _ _ z => z - (1 # 10)) (FromFile true (mkHead 0 1 (1 # 4) 30) p) None None (Some 20) = Ok t /\ t_piv t = 20 /\
    map Qred (t_z t) = [0; 1 # 4; 1 # 2; 3 # 4] /\ t_extra t = [true; false; false; false] /\ map (map Qred) (t_scat t) = [[1 # 1000; 3 # 20; 2 # 5; 13 # 20]].
Proof. eexists. repeat split. Qed.
(** The errors: a mask with mode 0 is a ValueError; a correction from nothing is a RuntimeError. *)
Theorem C159_config_error f : check_mask (Some f) 0 = Err ValueError.
Proof. reflexivity. Qed.
Print Assumptions C159_config_error.
Theorem C160_nothing spl zr bin piv : zcorr_init spl Nothing zr bin piv = Err RuntimeError.
Proof. reflexivity. Qed.
Print Assumptions C160_nothing.
(** From parameters alone, the range, the bin size and the pivot must be given: otherwise it is a ValueError. *)
Theorem C160_incomplete spl p zr bin piv : zr = None \/ bin = None \/ piv = None -> zcorr_init spl (FromPars p) zr bin piv = Err ValueError.
Proof. intros [->|[->| ->]]; cbn; [reflexivity|destruct zr as [[? ?]|]; reflexivity|destruct zr as [[? ?]|], bin; reflexivity]. Qed.
Print Assumptions C160_incomplete.
