(** C185: the row of parameters the calibration of the red sequence starts from, and what is read from it. *)
From Coq Require Import QArith Ascii String Sorting.Sorted.
From Verif.Base Require Import Py PyLemmas.
From Verif.Model Require Import Names Util Galfile RedPars.
From Verif.Spec Require Import Util RedPars.
From Verif.Proofs Require Import Ingest RunAll RedPars.
From Verif.Proofs Require Util.
From Verif.Props Require Util.
From Coq Require Import Lqa Lia List. Import ListNotations.
Local Open Scope nat_scope.
Local Open Scope list_scope.

Lemma nodes_none c s : (0 <= s_z0 c < s_z1 c)%Q -> (0 < s)%Q -> exists xs, make_nodes (s_z0 c) (s_z1 c) s None = Ok xs /\ spans c xs.
Proof.
  intros R Hs. destruct (Verif.Props.Util.C43_nodes (s_z0 c) (s_z1 c) s None Hs ltac:(lra) ltac:(cbn; lra)) as (xs & E & S1 & _ & I & L & _). exists xs. split; [exact E|]. split; [exact S1|]. split; [|exact L].
  intros ->. destruct I.
Qed.
Lemma nodes_some c s m : (0 <= s_z0 c < s_z1 c)%Q -> (0 < s)%Q -> (m < 0)%Q \/ (s_z0 c < m)%Q -> exists xs, make_nodes (s_z0 c) (s_z1 c) s (Some m) = Ok xs /\ spans c xs.
Proof.
  intros R Hs Hm. assert (K : (s_z0 c < node_end (s_z1 c) (Some m))%Q).
  { unfold node_end. destruct (Verif.Proofs.Util.Qlt_bool_cases m 0) as [[A ->]|[A ->]]; [lra|]. unfold clipQ. destruct (Verif.Proofs.Util.Qmax2_cases m 0) as [[B1 B2]|[B1 B2]]; rewrite B2; match goal with |- context [Qmin2 ?a ?b] => destruct (Verif.Proofs.Util.Qmin2_cases a b) as [[D1 D2]|[D1 D2]]; rewrite D2 end; lra. }
  destruct (Verif.Props.Util.C43_nodes (s_z0 c) (s_z1 c) s (Some m) Hs ltac:(lra) K) as (xs & E & S1 & _ & I & L & _). exists xs. split; [exact E|]. split; [exact S1|]. split; [|exact L].
  intros ->. destruct I.
Qed.
Lemma all_nodes_ok c : sound c -> exists n, all_nodes c = Ok n /\ spans c (n_pivot n) /\ spans c (n_cov n) /\ spans c (n_corr n) /\ spans c (n_corrslope n) /\ spans c (n_vol n) /\
  List.length (n_colors n) = s_nmag c - 1 /\ (forall a b, In (a, b) (n_colors n) -> spans c a /\ spans c b).
Proof.
  intros [R S0 (C1 & C2 & C3) M].
  destruct (nodes_none c (s_pivot c) R) as (a & A1 & A2); [apply S0; cbn; tauto|]. destruct (nodes_none c (s_cov c) R) as (b & B1 & B2); [apply S0; cbn; tauto|].
  destruct (nodes_none c (s_corr c) R) as (d & D1 & D2); [apply S0; cbn; tauto|]. destruct (nodes_none c (s_corrslope c) R) as (e & E1 & E2); [apply S0; cbn; tauto|].
  destruct (nodes_none c (1#100)%Q R) as (f & F1 & F2); [lra|].
  assert (X : forall j, j < s_nmag c - 1 -> exists y, color_nodes c (0 + j) = Ok y /\ spans c (fst y) /\ spans c (snd y)).
  { intros j L. cbn [Nat.add]. unfold color_nodes, at_index.
    destruct (nth_error (s_color c) j) as [s|] eqn:G1; [|apply nth_error_None in G1; lia]. destruct (nth_error (s_max c) j) as [m|] eqn:G2; [|apply nth_error_None in G2; lia].
    destruct (nth_error (s_slope c) j) as [t|] eqn:G3; [|apply nth_error_None in G3; lia]. cbn [bind]. apply nth_error_In in G1, G2, G3.
    destruct (nodes_some c s m R) as (u & U1 & U2); [apply S0; rewrite !in_app_iff; tauto|apply M, G2|]. destruct (nodes_some c t m R) as (v & V1 & V2); [apply S0; rewrite !in_app_iff; tauto|apply M, G2|].
    rewrite U1. cbn [bind]. rewrite V1. cbn [bind]. exists (u, v). auto. }
  destruct (mapM_seq_ok (color_nodes c) (s_nmag c - 1) 0) as (l & L). { intros j Hj. destruct (X j Hj) as (y & Y & _). exists y. exact Y. }
  exists (mkNodes a b d e f l). unfold all_nodes. rewrite A1, B1, D1, E1, F1. cbn [bind]. rewrite L. cbn [bind n_pivot n_cov n_corr n_corrslope n_vol n_colors].
  destruct (mapM_seq _ _ _ _ L) as (Ll & Y). repeat (split; [reflexivity || assumption|]). intros u v I. apply In_nth_error in I. destruct I as (j & I).
  assert (Hj : j < s_nmag c - 1) by (rewrite <- Ll; apply nth_error_Some; congruence). destruct (Y j Hj) as (y & Y1 & Y2). destruct (X j Hj) as (y' & Y3 & Y4). assert (y = (u, v)) by congruence. assert (y' = y) by congruence. subst. exact Y4.
Qed.

(** With sound settings the row can be made, whatever the number of bands: its columns have different names, and each
    spline the reader builds gets as many values as nodes, the nodes increasing up to the end of the redshift range. *)
Theorem C185_readable c : sound c -> exists r, make_pars c = Ok r /\ NoDup (map fst r) /\
  forall s, In s (splines (s_nmag c - 1)) -> exists xs ys, read_spline r s = Ok (xs, ys) /\ List.length xs = List.length ys /\ spans c xs.
Proof.
  intros H. destruct (all_nodes_ok c H) as (n & En & Sp & Sv & Sr & St & Sf & Ln & Sc). destruct (pars_ok c n En) as (r & Er & Nr & G1 & G2).
  exists r. split; [exact Er|]. split; [rewrite Nr; apply columns_nodup|].
  assert (Z0 : forall name m, In (name, [m]) (columns (s_nmag c) n) -> exists ys, get r name = Some ([m], ys) /\ List.length ys = m).
  { intros name m I. destruct (in_dec (list_eq_dec ascii_dec) name (map fst (starting_values c n))) as [J|J].
    - apply in_map_iff in J. destruct J as ([nm v] & E & J). cbn [fst] in E. subst nm. destruct (G1 name v J) as (sh & K & E). destruct (start_in c n name v J) as (sh' & K' & L').
      assert (U : forall x y, In (name, x) (columns (s_nmag c) n) -> In (name, y) (columns (s_nmag c) n) -> x = y).
      { pose proof (columns_nodup (s_nmag c) n) as N. revert N. generalize (columns (s_nmag c) n). induction l as [|[p q] l IH]; intros N x y A B; [destruct A|]. inversion N as [|u w N1 N2]; subst.
        destruct A as [A|A], B as [B|B].
        - congruence.
        - exfalso. apply N1. assert (p = name) as -> by congruence. apply in_map_iff. exists (name, y). auto.
        - exfalso. apply N1. assert (p = name) as -> by congruence. apply in_map_iff. exists (name, x). auto.
        - apply (IH N2 x y A B). }
      pose proof (U _ _ K I). pose proof (U _ _ K' I). subst. exists v. split; [exact E|]. rewrite L'. cbn. lia.
    - exists (repeat 0%Q (prod [m])). split; [apply G2; assumption|]. rewrite repeat_length. cbn. lia. }
  assert (V1 : forall zn vn xs, In (zn, xs) (starting_values c n) -> In (vn, [List.length xs]) (columns (s_nmag c) n) -> spans c xs ->
    exists xs ys, read_spline r (mkSpl zn vn None) = Ok (xs, ys) /\ List.length xs = List.length ys /\ spans c xs).
  { intros zn vn xs I J S1. destruct (G1 zn xs I) as (sh & _ & Ez). destruct (Z0 vn _ J) as (ys & Ey & L). exists xs, ys. unfold read_spline. cbn [sp_z sp_v sp_jk]. rewrite Ez, Ey. auto. }
  assert (SF : forall name v, In (name, v) [(s_ "pivotmag_z", n_pivot n); (s_ "covmat_z", n_cov n); (s_ "corr_z", n_corr n); (s_ "corr_slope_z", n_corrslope n); (s_ "volume_factor_z", n_vol n)] -> In (name, v) (starting_values c n)).
  { intros name v I. apply in_or_app. left. cbn [In] in *. tauto. }
  assert (CF : forall x, In x (fixed_columns (s_nmag c) n) -> In x (columns (s_nmag c) n)) by (intros x I; apply in_or_app; left; exact I).
  assert (VM : forall j k, j < s_nmag c - 1 -> k < s_nmag c - 1 -> exists xs ys, read_spline r (mkSpl (s_ "covmat_z") (s_ "sigma") (Some (j, k))) = Ok (xs, ys) /\ List.length xs = List.length ys /\ spans c xs).
  { intros j k Hj Hk. destruct (G1 (s_ "covmat_z") (n_cov n)) as (sh & _ & Ez); [apply SF; cbn [In]; tauto|].
    set (N := s_nmag c - 1) in *. set (v := List.length (n_cov n)).
    assert (Ey : get r (s_ "sigma") = Some ([N; N; v], repeat 0%Q (prod [N; N; v]))).
    { apply G2; [apply CF; unfold fixed_columns; cbn [In]; tauto|]. intros I. apply in_map_iff in I. destruct I as ([nm w] & E & I). cbn [fst] in E. subst nm. apply in_app_iff in I. destruct I as [I|I].
      - cbn [In] in I. repeat (destruct I as [I|I]; [discriminate I|]). destruct I.
      - apply in_flat_map in I. destruct I as ([j0 ab] & _ & I). cbn [fst snd In] in I.
        destruct I as [I|[I|[]]]; apply (f_equal (fun x => base (fst x))) in I; cbn [fst] in I; unfold ztag, zstag in I; rewrite tag_base in I by (cbn; tauto); vm_compute in I; discriminate I. }
    exists (n_cov n), (firstn v (skipn ((j * N + k) * v) (repeat 0%Q (prod [N; N; v])))). unfold read_spline. cbn [sp_z sp_v sp_jk]. rewrite Ez, Ey.
    assert (Lj : (j <? N) = true) by (apply Nat.ltb_lt; exact Hj). assert (Lk : (k <? N) = true) by (apply Nat.ltb_lt; exact Hk). rewrite Lj, Lk. cbn [andb]. split; [reflexivity|]. split; [|exact Sv].
    rewrite firstn_length, skipn_length, repeat_length. fold v. unfold prod. cbn [fold_right]. assert (Q1 : S j * N <= N * N) by (apply Nat.mul_le_mono_r; lia). assert (Q2 : (j * N + k + 1) * v <= N * N * v) by (apply Nat.mul_le_mono_r; lia). lia. }
  intros s I. unfold splines in I. rewrite !in_app_iff in I. destruct I as [I|[I|[I|[I|I]]]].
  - cbn [In] in I. destruct I as [<-|[<-|[<-|[]]]]; apply (V1 _ _ (n_pivot n)); try exact Sp; try (apply SF; cbn [In]; tauto); apply CF; unfold fixed_columns; cbn [In]; tauto.
  - apply in_flat_map in I. destruct I as (j & Hj & I). apply in_seq in Hj. destruct (nth_error (n_colors n) j) as [[a b]|] eqn:E; [|apply nth_error_None in E; lia].
    destruct (Sc a b (nth_error_In _ _ E)) as (Sa & Sb). apply numbered_nth in E.
    destruct I as [<-|[<-|[]]]; [apply (V1 _ _ a)|apply (V1 _ _ b)]; try assumption.
    + apply in_or_app. right. apply in_flat_map. exists (j, (a, b)). split; [exact E|cbn; tauto].
    + apply in_or_app. right. apply in_flat_map. exists (j, (a, b)). split; [exact E|cbn; tauto].
    + apply in_or_app. right. apply in_flat_map. exists (j, (a, b)). split; [exact E|cbn; tauto].
    + apply in_or_app. right. apply in_flat_map. exists (j, (a, b)). split; [exact E|cbn; tauto].
  - apply in_map_iff in I. destruct I as (j & <- & I). apply in_seq in I. apply VM; lia.
  - apply in_flat_map in I. destruct I as (j & Hj & I). apply in_seq in Hj. apply in_map_iff in I. destruct I as (k & <- & I). apply in_seq in I. apply VM; lia.
  - cbn [In] in I. destruct I as [<-|[<-|[<-|[<-|[<-|[<-|[<-|[]]]]]]]].
    1: apply (V1 _ _ (n_vol n)); [apply SF; cbn [In]; tauto|apply CF; unfold fixed_columns; cbn [In]; tauto|exact Sf].
    1, 3: apply (V1 _ _ (n_corr n)); [apply SF; cbn [In]; tauto|apply CF; unfold fixed_columns; cbn [In]; tauto|exact Sr].
    all: apply (V1 _ _ (n_corrslope n)); [apply SF; cbn [In]; tauto|apply CF; unfold fixed_columns; cbn [In]; tauto|exact St].
Qed.
Print Assumptions C185_readable.

(** Those splines are: three magnitude limits, the color and its slope for each color, each entry of the covariance on or
    above the diagonal, the volume factor and the six redshift corrections. *)
Theorem C185_splines ncol s : In s (splines ncol) <->
  (sp_jk s = None /\ (sp_z s, sp_v s) = (s_ "pivotmag_z", s_ "pivotmag")) \/ (sp_jk s = None /\ (sp_z s, sp_v s) = (s_ "pivotmag_z", s_ "maxrefmag")) \/
  (sp_jk s = None /\ (sp_z s, sp_v s) = (s_ "pivotmag_z", s_ "minrefmag")) \/
  (sp_jk s = None /\ exists j, j < ncol /\ ((sp_z s, sp_v s) = (s_ "z" ++ fmt 2 (Z.of_nat j), s_ "c" ++ fmt 2 (Z.of_nat j)) \/
     (sp_z s, sp_v s) = (s_ "zs" ++ fmt 2 (Z.of_nat j), s_ "slope" ++ fmt 2 (Z.of_nat j)))) \/
  ((sp_z s, sp_v s) = (s_ "covmat_z", s_ "sigma") /\ exists j k, j <= k < ncol /\ sp_jk s = Some (j, k)) \/
  (sp_jk s = None /\ In (sp_z s, sp_v s) (map (fun x => (s_ (fst x), s_ (snd x))) [("volume_factor_z", "volume_factor"); ("corr_z", "corr"); ("corr_slope_z", "corr_slope");
     ("corr_z", "corr2"); ("corr_slope_z", "corr2_slope"); ("corr_slope_z", "corr_r"); ("corr_slope_z", "corr2_r")]%string)).
Proof.
  destruct s as [z v jk]. cbn [sp_z sp_v sp_jk]. split.
  - intros I. unfold splines in I. rewrite !in_app_iff in I. destruct I as [I|[I|[I|[I|I]]]].
    + cbn [In] in I. destruct I as [I|[I|[I|[]]]]; [left|right; left|right; right; left]; split; congruence.
    + do 3 right. left. apply in_flat_map in I. destruct I as (j & Hj & I). apply in_seq in Hj. destruct I as [I|[I|[]]]; (split; [congruence|]); exists j; (split; [lia|]); [left|right]; apply (f_equal (fun s => (sp_z s, sp_v s))) in I; symmetry; exact I.
    + do 4 right. left. apply in_map_iff in I. destruct I as (j & I & Hj). apply in_seq in Hj. split; [congruence|]. exists j, j. split; [lia|congruence].
    + do 4 right. left. apply in_flat_map in I. destruct I as (j & Hj & I). apply in_seq in Hj. apply in_map_iff in I. destruct I as (k & I & Hk). apply in_seq in Hk. split; [congruence|]. exists j, k. split; [lia|congruence].
    + do 5 right. cbn [In] in I. split; [repeat (destruct I as [I|I]; [congruence|]); destruct I|]. cbn [map fst snd In].
      destruct I as [I|[I|[I|[I|[I|[I|[I|[]]]]]]]]; [left|right; left|do 2 right; left|do 3 right; left|do 4 right; left|do 5 right; left|do 6 right; left]; congruence.
  - unfold splines. rewrite !in_app_iff. intros [(-> & E)|[(-> & E)|[(-> & E)|[(-> & j & L & E)|[(E & j & k & L & ->)|(-> & E)]]]]].
    + left. injection E as -> ->. cbn [In]. auto.
    + left. injection E as -> ->. cbn [In]. auto.
    + left. injection E as -> ->. cbn [In]. auto.
    + right. left. apply in_flat_map. exists j. split; [apply in_seq; lia|]. destruct E as [E|E]; apply pair_equal_spec in E; destruct E as (-> & ->); [left|right; left]; reflexivity.
    + apply pair_equal_spec in E. destruct E as (-> & ->). destruct (Nat.eq_dec j k) as [->|D].
      * right. right. left. apply in_map_iff. exists k. split; [reflexivity|apply in_seq; lia].
      * right. right. right. left. apply in_flat_map. exists j. split; [apply in_seq; lia|]. apply in_map_iff. exists k. split; [reflexivity|apply in_seq; lia].
    + right. right. right. right. cbn [map fst snd In] in E.
      destruct E as [E|[E|[E|[E|[E|[E|[E|[]]]]]]]]; apply pair_equal_spec in E; destruct E as (<- & <-); [left|right; left|do 2 right; left|do 3 right; left|do 4 right; left|do 5 right; left|do 6 right; left]; reflexivity.
Qed.
Print Assumptions C185_splines.
(** A spline without one of its columns is a ValueError, an entry outside of a column of matrices an IndexError, and so is the entry of a column that is none. *)
Theorem C185_unreadable r s : ((get r (sp_z s) = None \/ get r (sp_v s) = None) -> read_spline r s = Err ValueError) /\
  (forall x sh ys, get r (sp_z s) = Some x -> get r (sp_v s) = Some (sh, ys) ->
     (forall j k a b n, sp_jk s = Some (j, k) -> sh = [a; b; n] -> (a <= j \/ b <= k) -> read_spline r s = Err IndexError) /\
     (forall j k a, sp_jk s = Some (j, k) -> sh = [a] -> read_spline r s = Err IndexError) /\ (forall a b n, sp_jk s = None -> sh = [a; b; n] -> read_spline r s = Err IndexError)).
Proof.
  unfold read_spline. split.
  - intros [->| ->]; [reflexivity|]. destruct (get r (sp_z s)) as [[? ?]|]; reflexivity.
  - intros [x0 x] sh ys -> ->. split; [|split].
    + intros j k a b n -> -> H. destruct (Nat.ltb_spec j a); destruct (Nat.ltb_spec k b); cbn [andb]; try reflexivity. lia.
    + intros j k a -> ->. reflexivity.
    + intros a b n -> ->. reflexivity.
Qed.
Print Assumptions C185_unreadable.

(** The columns of nodes hold the nodes of their settings, the pivot of the error ratio is the one set, all else is zero. *)
Theorem C185_start c r : make_pars c = Ok r ->
  (forall name size, In (name, size) [("pivotmag_z", s_pivot c); ("covmat_z", s_cov c); ("corr_z", s_corr c); ("corr_slope_z", s_corrslope c); ("volume_factor_z", (1#100)%Q)]%string ->
     exists xs, make_nodes (s_z0 c) (s_z1 c) size None = Ok xs /\ column_is r (s_ name) xs) /\
  (forall j, j < s_nmag c - 1 -> exists s m t xs ts, nth_error (s_color c) j = Some s /\ nth_error (s_max c) j = Some m /\ nth_error (s_slope c) j = Some t /\
     make_nodes (s_z0 c) (s_z1 c) s (Some m) = Ok xs /\ column_is r (s_ "z" ++ fmt 2 (Z.of_nat j)) xs /\
     make_nodes (s_z0 c) (s_z1 c) t (Some m) = Ok ts /\ column_is r (s_ "zs" ++ fmt 2 (Z.of_nat j)) ts) /\
  column_is r (s_ "mag_err_ratio_pivot") [s_errpivot c] /\
  (forall name x, In name (map s_ ["pivotmag"; "minrefmag"; "maxrefmag"; "medcol"; "medcol_width"; "medcol_err_ratio"; "sigma"; "covmat_amp"; "covmat_slope";
       "mag_err_ratio_int"; "mag_err_ratio_slope"; "corr"; "corr_slope"; "corr_r"; "corr2"; "corr2_slope"; "corr2_r"; "volume_factor"]%string) \/
     (exists j, j < s_nmag c - 1 /\ (name = s_ "c" ++ fmt 2 (Z.of_nat j) \/ name = s_ "slope" ++ fmt 2 (Z.of_nat j))) ->
     forall vs, column_is r name vs -> In x vs -> x = 0%Q).
Proof.
  intros H. assert (En : exists n, all_nodes c = Ok n). { unfold make_pars in H. destruct (all_nodes c) as [n|]; [eauto|discriminate]. } destruct En as (n & En).
  destruct (pars_ok c n En) as (r' & Er & Nr & G1 & G2). assert (r' = r) as -> by congruence.
  destruct (all_nodes_inv c n En) as (A1 & A2 & A3 & A4 & A5 & A6). destruct (mapM_seq _ _ _ _ A6) as (Ll & Y).
  assert (SF : forall name v, In (name, v) [(s_ "pivotmag_z", n_pivot n); (s_ "covmat_z", n_cov n); (s_ "corr_z", n_corr n); (s_ "corr_slope_z", n_corrslope n); (s_ "volume_factor_z", n_vol n); (s_ "mag_err_ratio_pivot", [s_errpivot c])] -> column_is r name v).
  { intros name v I. destruct (G1 name v) as (sh & _ & E); [apply in_or_app; left; exact I|]. exists sh. exact E. }
  split; [|split; [|split]].
  - intros name size I. cbn [In] in I. destruct I as [I|[I|[I|[I|[I|[]]]]]]; injection I as <- <-; eexists; (split; [eassumption|]); apply SF; cbn [In]; tauto.
  - intros j L. destruct (Y j L) as ([xs ts] & Y1 & Y2). cbn [Nat.add] in Y2. unfold color_nodes, at_index in Y2.
    destruct (nth_error (s_color c) j) as [s|]; [|discriminate]. destruct (nth_error (s_max c) j) as [m|]; [|discriminate]. cbn [bind] in Y2.
    destruct (make_nodes (s_z0 c) (s_z1 c) s (Some m)) as [a|] eqn:Ea; [|discriminate]. cbn [bind] in Y2. destruct (nth_error (s_slope c) j) as [t|]; [|discriminate]. cbn [bind] in Y2.
    destruct (make_nodes (s_z0 c) (s_z1 c) t (Some m)) as [b|] eqn:Eb; [|discriminate]. cbn [bind] in Y2. injection Y2 as -> ->. apply numbered_nth in Y1.
    exists s, m, t, xs, ts. split; [reflexivity|]. split; [reflexivity|]. split; [reflexivity|]. split; [exact Ea|]. split; [|split; [exact Eb|]].
    + destruct (G1 (ztag j) xs) as (sh & _ & E); [|exists sh; exact E]. apply in_or_app. right. apply in_flat_map. exists (j, (xs, ts)). split; [exact Y1|cbn; tauto].
    + destruct (G1 (zstag j) ts) as (sh & _ & E); [|exists sh; exact E]. apply in_or_app. right. apply in_flat_map. exists (j, (xs, ts)). split; [exact Y1|cbn; tauto].
  - apply SF. cbn [In]. tauto.
  - intros name x Hn vs (sh & E) I.
    assert (K : ~ In name (map fst (starting_values c n)) /\ exists sh, In (name, sh) (columns (s_nmag c) n)).
    { unfold starting_values. rewrite map_app, in_app_iff. destruct Hn as [Hn|(j & Lj & Hn)].
      - assert (F : In name (map fst (fixed_columns (s_nmag c) n))). { unfold fixed_columns. cbn [map fst In] in *. tauto. }
        split; [|apply in_map_iff in F; destruct F as ([nm s1] & <- & F); exists s1; apply in_or_app; left; exact F]. intros [J|J].
        + assert (D : existsb (fun y => existsb (same y) (map s_ ["pivotmag_z"; "covmat_z"; "corr_z"; "corr_slope_z"; "volume_factor_z"; "mag_err_ratio_pivot"]%string))
            (map s_ ["pivotmag"; "minrefmag"; "maxrefmag"; "medcol"; "medcol_width"; "medcol_err_ratio"; "sigma"; "covmat_amp"; "covmat_slope";
              "mag_err_ratio_int"; "mag_err_ratio_slope"; "corr"; "corr_slope"; "corr_r"; "corr2"; "corr2_slope"; "corr2_r"; "volume_factor"]%string) = false) by (vm_compute; reflexivity).
          apply Bool.not_true_iff_false in D. apply D. apply existsb_exists. exists name. split; [exact Hn|]. apply existsb_exists. exists name. split; [|apply same_refl]. exact J.
        + apply in_map_iff in J. destruct J as ([nm w] & E1 & J). cbn [fst] in E1. subst nm. apply in_flat_map in J. destruct J as ([j ab] & _ & J). apply (fixed_base _ _ _ F).
          cbn [fst snd In] in J. destruct J as [J|[J|[]]]; apply (f_equal fst) in J; cbn [fst] in J; rewrite <- J; unfold ztag, zstag; rewrite tag_base by (cbn; tauto); cbn; tauto.
      - assert (T : exists k, In k kinds /\ k <> s_ "z" /\ k <> s_ "zs" /\ name = k ++ fmt 2 (Z.of_nat j)).
        { destruct Hn as [->| ->]; [exists (s_ "c")|exists (s_ "slope")]; (split; [cbn; tauto|]; split; [discriminate|]; split; [discriminate|reflexivity]). }
        destruct T as (k & Ik & Kz & Kzs & ->). split.
        + intros [J|J].
          * apply (fixed_base 0 n (k ++ fmt 2 (Z.of_nat j))); [|rewrite tag_base by exact Ik; exact Ik]. unfold fixed_columns. cbn [map fst In] in *. tauto.
          * apply in_map_iff in J. destruct J as ([nm w] & E1 & J). cbn [fst] in E1. apply in_flat_map in J. destruct J as ([j' ab] & _ & J). cbn [fst snd In] in J.
            destruct J as [J|[J|[]]]; apply (f_equal fst) in J; cbn [fst] in J; rewrite E1 in J; unfold ztag, zstag in J; apply tag_inj in J; try (cbn; tauto); try exact Ik; destruct J as (J & _); congruence.
        + destruct (Y j Lj) as (ab & Y1 & _). apply numbered_nth in Y1.
          assert (J : In (k ++ fmt 2 (Z.of_nat j)) (map fst (color_columns j ab))). { cbn [color_columns map fst In]. unfold ztag, ctag, zstag, stag. destruct Ik as [<-|[<-|[<-|[<-|[]]]]]; tauto. }
          apply in_map_iff in J. destruct J as ([nm s1] & E1 & J). cbn [fst] in E1. subst nm. exists s1. apply in_or_app. right. apply in_flat_map. exists (j, ab). auto. }
    destruct K as (K & s1 & J). rewrite (G2 name s1 J K) in E. injection E as _ <-. apply repeat_spec in I. exact I.
Qed.
Print Assumptions C185_start.
(** Finding: the largest node set for a color is not checked.  One at or below the lower end of the range (and not negative)
    stops the calibration when the row is made, with an error about an empty array. *)
Theorem C185_maxnode_refuted c j s m : (forall i, i < j -> exists ab, color_nodes c i = Ok ab) -> (0 <= s_z0 c < s_z1 c)%Q -> (0 < s_pivot c)%Q -> (0 < s_cov c)%Q -> (0 < s_corr c)%Q -> (0 < s_corrslope c)%Q ->
  j < s_nmag c - 1 -> nth_error (s_color c) j = Some s -> (0 < s)%Q -> nth_error (s_max c) j = Some m -> (0 <= m <= s_z0 c)%Q -> make_pars c = Err ValueError.
Proof.
  intros B R H1 H2 H3 H4 Lj Es Hs Em Hm. unfold make_pars, all_nodes.
  destruct (nodes_none c (s_pivot c) R H1) as (a & -> & _). destruct (nodes_none c (s_cov c) R H2) as (b & -> & _). destruct (nodes_none c (s_corr c) R H3) as (d & -> & _).
  destruct (nodes_none c (s_corrslope c) R H4) as (e & -> & _). destruct (nodes_none c (1#100)%Q R) as (f & -> & _); [lra|]. cbn [bind].
  assert (C : color_nodes c j = Err ValueError).
  { unfold color_nodes, at_index. rewrite Es, Em. cbn [bind]. rewrite Verif.Props.Util.C43_empty_refuted; [reflexivity|exact Hs|]. unfold node_end.
    destruct (Verif.Proofs.Util.Qlt_bool_cases m 0) as [[A ->]|[A ->]]; [lra|]. unfold clipQ.
    destruct (Verif.Proofs.Util.Qmax2_cases m 0) as [[B1 B2]|[B1 B2]]; rewrite B2; match goal with |- context [Qmin2 ?x ?y] => destruct (Verif.Proofs.Util.Qmin2_cases x y) as [[D1 D2]|[D1 D2]]; rewrite D2 end; lra. }
  assert (X : forall n k, k <= j < k + n -> mapM (color_nodes c) (seq k n) = Err ValueError).
  { induction n as [|n IH]; intros k L; [lia|]. cbn [seq mapM]. destruct (Nat.eq_dec k j) as [->|D]; [rewrite C; reflexivity|]. destruct (B k) as (ab & ->); [lia|]. cbn [bind]. rewrite IH by lia. reflexivity. }
  rewrite X by lia. reflexivity.
Qed.
Print Assumptions C185_maxnode_refuted.
(** Settings for fewer colors than there are stop it too. *)
Theorem C185_short c j : (forall i, i < j -> exists ab, color_nodes c i = Ok ab) -> (0 <= s_z0 c < s_z1 c)%Q -> (0 < s_pivot c)%Q -> (0 < s_cov c)%Q -> (0 < s_corr c)%Q -> (0 < s_corrslope c)%Q ->
  j < s_nmag c - 1 -> List.length (s_color c) <= j -> make_pars c = Err IndexError.
Proof.
  intros B R H1 H2 H3 H4 Lj Es. unfold make_pars, all_nodes.
  destruct (nodes_none c (s_pivot c) R H1) as (a & -> & _). destruct (nodes_none c (s_cov c) R H2) as (b & -> & _). destruct (nodes_none c (s_corr c) R H3) as (d & -> & _).
  destruct (nodes_none c (s_corrslope c) R H4) as (e & -> & _). destruct (nodes_none c (1#100)%Q R) as (f & -> & _); [lra|]. cbn [bind].
  assert (C : color_nodes c j = Err IndexError). { unfold color_nodes, at_index. rewrite (proj2 (nth_error_None _ _)) by exact Es. reflexivity. }
  assert (X : forall n k, k <= j < k + n -> mapM (color_nodes c) (seq k n) = Err IndexError).
  { induction n as [|n IH]; intros k L; [lia|]. cbn [seq mapM]. destruct (Nat.eq_dec k j) as [->|D]; [rewrite C; reflexivity|]. destruct (B k) as (ab & ->); [lia|]. cbn [bind]. rewrite IH by lia. reflexivity. }
  rewrite X by lia. reflexivity.
Qed.
Print Assumptions C185_short.
(** Finding: in a range not longer than half a node size plus 0.01 (and than a node size) the reader's spline has a single
    node, which a spline cannot be drawn through: its two ends coincide. *)
Theorem C185_single_refuted c r : make_pars c = Ok r -> (0 < s_pivot c)%Q -> (s_z0 c < s_z1 c)%Q -> (s_z1 c - s_z0 c <= s_pivot c)%Q -> (s_z1 c - s_z0 c <= s_pivot c * (1#2) + (1#100))%Q ->
  exists y, read_spline r (mkSpl (s_ "pivotmag_z") (s_ "pivotmag") None) = Ok ([s_z1 c], [y]).
Proof.
  intros H P0 R L1 L2. assert (En : exists n, all_nodes c = Ok n). { unfold make_pars in H. destruct (all_nodes c) as [n|]; [eauto|discriminate]. } destruct En as (n & En).
  destruct (pars_ok c n En) as (r' & Er & Nr & G1 & G2). assert (r' = r) as -> by congruence.
  destruct (all_nodes_inv c n En) as (A1 & _). rewrite (Verif.Props.Util.C43_start_refuted (s_z0 c) (s_z1 c) (s_pivot c) None P0) in A1 by (cbn; assumption). cbn [node_end] in A1.
  assert (Q0 : Qlt_bool (s_z1 c) (s_z1 c) = false). { destruct (Verif.Proofs.Util.Qlt_bool_cases (s_z1 c) (s_z1 c)) as [[A _]|[_ A]]; [lra|exact A]. } rewrite Q0 in A1. injection A1 as A1.
  destruct (G1 (s_ "pivotmag_z") (n_pivot n)) as (sh & _ & Ez); [cbn [starting_values app In]; tauto|].
  assert (Ev : get r (s_ "pivotmag") = Some ([List.length (n_pivot n)], repeat 0%Q (prod [List.length (n_pivot n)]))).
  { apply G2; [apply in_or_app; left; unfold fixed_columns; cbn [In]; tauto|]. intros J. unfold starting_values in J. rewrite map_app, in_app_iff in J. destruct J as [J|J].
    - cbn [map fst In] in J. repeat (destruct J as [J|J]; [discriminate J|]). destruct J.
    - apply in_map_iff in J. destruct J as ([nm w] & E1 & J). cbn [fst] in E1. subst nm. apply in_flat_map in J. destruct J as ([j ab] & _ & J). cbn [fst snd In] in J.
      destruct J as [J|[J|[]]]; apply (f_equal (fun x => base (fst x))) in J; cbn [fst] in J; unfold ztag, zstag in J; rewrite tag_base in J by (cbn; tauto); vm_compute in J; discriminate J. }
  exists 0%Q. unfold read_spline. cbn [sp_z sp_v sp_jk]. rewrite Ez, Ev, <- A1. reflexivity.
Qed.
Print Assumptions C185_single_refuted.
Definition ex_set : settings := (mkSet (1#10) (1#2) (1#10) (15#100) (5#100) (1#10) 20 5%nat [5#100; 5#100; 5#100; 1#10] [1#10; 1#10; 1#10; 2#10] [4#10; -(1); -(1); -(1)])%Q.
Example C185_sound_ex : sound ex_set.
Proof.
  split; cbn.
  - lra.
  - intros s I. repeat (destruct I as [<-|I]; [reflexivity|]). destruct I.
  - auto.
  - intros m I. repeat (destruct I as [<-|I]; [vm_compute; auto|]). destruct I.
Qed.
Example C185_ex : match make_pars ex_set with
  | Ok r => match read_spline r (mkSpl (s_ "pivotmag_z") (s_ "pivotmag") None) with Ok (xs, ys) => map Qred xs = [1#10; 1#5; 3#10; 2#5; 1#2]%Q /\ ys = [0; 0; 0; 0; 0]%Q | Err _ => False end
  | Err _ => False end.
Proof. vm_compute. auto. Qed.
