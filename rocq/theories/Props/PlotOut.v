(** C194: the files of the diagnostic plots.  C195: the plot of richnesses. *)
From Coq Require Import QArith Qround Ascii String Lqa FinFun.
From Verif.Base Require Import Py PyLemmas.
From Verif.Model Require Import Names RunFlags PlotOut.
From Verif.Spec Require Import PlotOut.
From Verif.Proofs Require Import PlotOut.
From Coq Require Import Lia List. Import ListNotations.
Local Open Scope list_scope.

(** Once a file is saved, filename is where, whatever the plot and the plots before. *)
Theorem C194_filename k o a p pp base : snd (plot k o a) = true -> exists v n, plot_filename p pp base (fst (plot k o a)) = Ok (plot_file p pp base v n) /\
  match a with Cat v' _ => v = v' | Vals n' v' _ => v = v' /\ (k <> PSpec -> n = n') end.
Proof.
  destruct k, a as [v r|n v r]; cbn [plot fst snd]; try (destruct r; cbn [fst snd]; [discriminate|]); intros _; do 2 eexists; (split; [reflexivity|]); try reflexivity; (split; [reflexivity|]); intros K; (reflexivity || congruence).
Qed.
Print Assumptions C194_filename.
(** Every plot is saved, but for a comparison of redshifts that is returned, which leaves the object as it was. *)
Theorem C194_saved k o a : snd (plot k o a) = false <-> k = PSpec /\ match a with Cat _ r | Vals _ _ r => r = true end.
Proof. destruct k, a as [v r|n v r]; cbn; try (destruct r); cbn; intuition discriminate. Qed.
Print Assumptions C194_saved.
Theorem C194_unsaved k o a : snd (plot k o a) = false -> fst (plot k o a) = o.
Proof. intros H. apply C194_saved in H as [-> H]. destruct a as [v r|n v r]; rewrite H; reflexivity. Qed.
Print Assumptions C194_unsaved.
(** With a new object, the plot of a catalogue of each kind is saved under the name of the kind; a comparison of redshifts that is returned is not saved. *)
Theorem C194_catalogue k v r : plot k (new_plot k) (Cat v r) = match k, r with PSpec, true => (new_plot k, false) | _, _ => (mkPobj (cat_name k) (Some v), true) end.
Proof. destruct k, r; reflexivity. Qed.
Print Assumptions C194_catalogue.
(** The plots of a catalogue have four different files, and so have the catalogues of a consolidation if their base names differ. *)
Theorem C194_distinct p pp a b v j k : plot_file p pp a v (cat_name j) = plot_file p pp b v (cat_name k) <-> j = k /\ a = b.
Proof.
  split; [|intros [-> ->]; reflexivity]. unfold plot_file. intros H. do 4 apply app_inv_head in H. apply kinds_differ in H as [-> H]. split; [reflexivity|]. destruct v; [apply app_inv_tail in H|]; exact H.
Qed.
Print Assumptions C194_distinct.
(** The file of the plot of a catalogue is the same whatever was plotted with the object before, for redshifts and densities in redshift.  Missing: the other two (C194_renamed_refuted). *)
Theorem C194_history_partial k l v : k = PSpec \/ k = PNz -> plot k (plots k (new_plot k) l) (Cat v false) = (mkPobj (cat_name k) (Some v), true).
Proof.
  intros [-> | ->]; [|reflexivity]. assert (H : forall o, b_name o = "zspec"%string -> b_name (plots PSpec o l) = "zspec"%string).
  { unfold plots. induction l as [|a l IH]; intros o E; [exact E|]. cbn [fold_left]. apply IH. destruct a as [w r|n w r]; cbn [plot]; destruct r; exact E. }
  cbn [plot]. rewrite H by reflexivity. reflexivity.
Qed.
Print Assumptions C194_history_partial.
(** Finding: the plots of richnesses and positions take the name of the plot before: after a plot of values with a name of its own, the plot of a catalogue is saved over it. *)
Theorem C194_renamed_refuted k n v w p pp base : k = PLam \/ k = PPos ->
  plot_filename p pp base (plots k (new_plot k) [Vals n v false; Cat v w]) = plot_filename p pp base (plots k (new_plot k) [Vals n v false]).
Proof. intros [-> | ->]; reflexivity. Qed.
Print Assumptions C194_renamed_refuted.
(** Finding: for these two, filename is an AttributeError before the first plot; for the others it is where the plot will be, without a version. *)
Theorem C194_before_refuted k p pp base : plot_filename p pp base (new_plot k) = Err AttributeError <-> k = PLam \/ k = PPos.
Proof. destruct k; cbn; split; intros H; try discriminate; try reflexivity; auto; destruct H; discriminate. Qed.
Print Assumptions C194_before_refuted.
(** Before the first plot, filename is that of the plot of a catalogue, for redshifts and densities in redshift.  Missing: the other two (C194_before_refuted). *)
Theorem C194_before_partial k p pp base : k = PSpec \/ k = PNz -> plot_filename p pp base (new_plot k) = plot_filename p pp base (fst (plot k (new_plot k) (Cat false false))).
Proof. intros [-> | ->]; reflexivity. Qed.
Print Assumptions C194_before_partial.
(** Finding: names of redMaGiC plots run together: a plot of the calibration of a sample has the name of the plot of a sample that is called by both. *)
Theorem C194_redmagic_refuted e name eta n0 : redmagic_name (Some e) name eta n0 = redmagic_name None (e ++ "_" ++ name) eta n0.
Proof.
  unfold redmagic_name. assert (A : forall a b c, ((a ++ b) ++ c = a ++ b ++ c)%string) by (induction a; intros; cbn; congruence). rewrite !A. reflexivity.
Qed.
Print Assumptions C194_redmagic_refuted.

(** A consolidation with catalogues of different bases has four plots for each, all in files of their own, without a version in their names but that of the base. *)
Theorem C194_consolidation p pp outbase bases : (forall f, In f (fst (consolidation_plots p pp outbase bases)) <-> exists b k, In b bases /\ f = plot_file p pp b false (cat_name k)) /\
  (NoDup bases -> NoDup (fst (consolidation_plots p pp outbase bases))) /\ List.length (fst (consolidation_plots p pp outbase bases)) = (4 * List.length bases)%nat.
Proof.
  assert (B : forall b, base_plots p pp b = map (fun k => plot_file p pp b false (cat_name k)) [PSpec; PNz; PLam; PPos]) by reflexivity.
  assert (I : forall b f, In f (base_plots p pp b) <-> exists k, f = plot_file p pp b false (cat_name k)).
  { intros b f. rewrite B, in_map_iff. split; [intros (k & <- & _); exists k; reflexivity|]. intros [k ->]. exists k. split; [reflexivity|]. destruct k; cbn; auto. }
  unfold consolidation_plots. cbn [fst]. split; [|split].
  - intros f. rewrite in_flat_map. split; [intros (b & H & K); apply I in K as [k K]; exists b, k; tauto|]. intros (b & k & H & K). exists b. split; [exact H|]. apply I. exists k. exact K.
  - intros N. apply NoDup_flat; [exact N| |].
    + intros b. rewrite B. apply FinFun.Injective_map_NoDup; [intros j k E; apply C194_distinct in E; tauto|]. repeat constructor; cbn; intuition discriminate.
    + intros a b y Y Z. apply I in Y as [j ->]. apply I in Z as [k Z]. apply C194_distinct in Z. tauto.
  - induction bases as [|b t IH]; [reflexivity|]. cbn [flat_map List.length]. rewrite app_length, IH, B, map_length. cbn [List.length]. lia.
Qed.
Print Assumptions C194_consolidation.
(** The base of a catalogue's plots is that of the catalogue's file, if "_catalog" is nowhere before in the name: so bases differ if the cuts do.  Missing: other names (C194_base_refuted). *)
Theorem C194_base_partial outbase version extra : let l := outbase ++ s_ "_redmapper_v" ++ version ++ s_ "_" ++ extra in
  (forall a b, l ++ s_ "_catalog" = a ++ s_ "_catalog" ++ b -> b = []) -> plot_base outbase version extra = l.
Proof.
  intros l H. unfold plot_base. change (s_ "_catalog.fit") with (s_ "_catalog" ++ s_ ".fit"). rewrite <- (before_first (s_ "_catalog") l (s_ ".fit") H). unfold l. rewrite <- !app_assoc. reflexivity.
Qed.
Print Assumptions C194_base_partial.
(** Finding: with "_catalog" in the name of the run, the plots of all cuts have one base, and those of the last cut are what is left. *)
Theorem C194_base_refuted a z version extra extra' : plot_base (a ++ s_ "_catalog" ++ z) version extra = plot_base (a ++ s_ "_catalog" ++ z) version extra'.
Proof. unfold plot_base. rewrite <- !(app_assoc a), <- !(app_assoc (s_ "_catalog")). apply before_common. Qed.
Print Assumptions C194_base_refuted.
(** Finding: with plots, the configuration is left with the base of the last catalogue as the name of the run. *)
Theorem C194_outbase_refuted p pp outbase bases b : snd (consolidation_plots p pp outbase (bases ++ [b])) = b.
Proof. unfold consolidation_plots. cbn [snd]. apply last_last. Qed.
Print Assumptions C194_outbase_refuted.
Example C194_base_ex : plot_base (s_ "des") (s_ "0.8") (s_ "lgt20_vl02") = s_ "des_redmapper_v0.8_lgt20_vl02" /\ plot_base (s_ "my_catalog_run") (s_ "0.8") (s_ "lgt20") = s_ "my". Proof. split; reflexivity. Qed.

(** The bins of the plot of richnesses have each cluster from 0 up to the last edge exactly once. *)
Theorem C195_counts bs lam : (0 < bs)%Q -> (2 <= n_edges bs)%nat ->
  fold_right Nat.add 0%nat (lambda_counts bs lam) = List.length (filter (fun x => Qle_bool 0 x && Qle_bool x (edge bs (n_edges bs - 1)))%bool lam).
Proof.
  intros B N. induction lam as [|x lam IH].
  { unfold lambda_counts. cbn [filter List.length]. induction (seq 0 _) as [|j t IH]; [reflexivity|exact IH]. }
  rewrite counts_cons, IH. cbn [filter]. destruct (Qle_bool 0 x && Qle_bool x _)%bool eqn:E.
  - apply Bool.andb_true_iff in E. rewrite !Qle_bool_iff in E. apply (in_bin_exists bs x B N) in E. destruct E as [j J]. pose proof (proj1 (in_bin_iff bs j x) J) as (J0 & _).
    rewrite (one_bin (fun i => in_lambda_bin bs i x) _ j); [reflexivity|lia|exact J| |lia]. intros i I. exact (in_bin_unique bs i j x B I J).
  - rewrite no_bin; [reflexivity|]. intros i. destruct (in_lambda_bin bs i x) eqn:I; [|reflexivity]. exfalso. assert (X : exists j, in_lambda_bin bs j x = true) by (exists i; exact I). apply (in_bin_exists bs x B N) in X.
    rewrite <- !Qle_bool_iff, <- Bool.andb_true_iff in X. congruence.
Qed.
Print Assumptions C195_counts.
(** A bin has the richnesses from its lower edge up to, but not, its upper edge, which only the last bin has. *)
Theorem C195_bin bs lam j c : nth_error (lambda_counts bs lam) j = Some c ->
  c = List.length (filter (fun x => Qle_bool (inject_Z (Z.of_nat j) * bs) x && (Qlt_bool x (inject_Z (Z.of_nat (S j)) * bs) || Nat.eqb (S (S j)) (n_edges bs) && Qeq_bool x (inject_Z (Z.of_nat (S j)) * bs)))%bool lam).
Proof.
  intros H. unfold lambda_counts in H. rewrite nth_error_map in H. destruct (nth_error (seq 0 _) j) as [i|] eqn:E; [|discriminate]. cbn [option_map] in H. injection H as <-.
  assert (I : (j < n_edges bs - 1)%nat) by (rewrite <- (seq_length (n_edges bs - 1) 0); apply nth_error_Some; congruence). rewrite (nth_error_nth' _ 0%nat) in E by (rewrite seq_length; exact I). rewrite seq_nth in E by exact I. injection E as <-.
  f_equal. apply filter_ext. intros x. unfold in_lambda_bin, edge. change (0 + j)%nat with j. assert (L : Nat.ltb (S j) (n_edges bs) = true) by (apply Nat.ltb_lt; lia). rewrite L. reflexivity.
Qed.
Print Assumptions C195_bin.
(** Finding: the last edge is below 200 (199 for bins of 1), and clusters that are richer are in no bin. *)
Theorem C195_rich_refuted bs x j : (0 < bs)%Q -> (200 <= x)%Q -> in_lambda_bin bs j x = false.
Proof.
  intros B X. destruct (in_lambda_bin bs j x) eqn:E; [|reflexivity]. exfalso. apply in_bin_iff in E as (J & _ & H). assert (C : (edge bs (S j) < 200)%Q).
  { unfold n_edges in J. pose proof (Qceiling_lt (200 / bs)) as C. assert (K : (Z.of_nat (S j) <= Qceiling (200 / bs) - 1)%Z) by lia. assert (M : (200 == 200 / bs * bs)%Q) by (field; lra). unfold edge. rewrite M. apply Qmult_lt_compat_r; [exact B|]. apply Qle_lt_trans with (inject_Z (Qceiling (200 / bs) - 1)); [rewrite <- Zle_Qle; exact K|exact C]. }
  destruct H as [H|[_ H]]; lra.
Qed.
Print Assumptions C195_rich_refuted.
Example C195_ex : n_edges 1 = 200%nat /\ n_edges 50 = 4%nat /\ lambda_counts 50 [20; 60; 149; 150; 151; 300]%Q = [1; 1; 2]%nat.
Proof. vm_compute. auto. Qed.
Example C194_ex : plot_filename (mkPlace (s_ "out") (s_ "des") (s_ "0.8")) (s_ "plots") (s_ "des_lgt20") (plots PNz (new_plot PNz) [Vals "redmagic" true false; Cat false false]) = Ok (s_ "out/plots/des_lgt20_nz.png").
Proof. reflexivity. Qed.
