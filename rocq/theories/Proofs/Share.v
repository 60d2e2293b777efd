(** Proofs for C181. *)
From Coq Require Import QArith ZArith Lqa.
From Verif.Base Require Import Py PyLemmas Sort Fn.
From Verif.Model Require Import Runner Consolidate.
From Verif.Model Require Galfile Runner.
From Verif.Spec Require Import Runner Consolidate Share.
From Verif.Proofs Require Import Runner Consolidate.
From Coq Require Import Lia List. Import ListNotations.
Local Open Scope nat_scope.

Definition pos (x : Q) : Q := if Qle_bool 0 x then x else 0%Q.
Lemma pos_0 x : (0 <= pos x)%Q.
Proof. unfold pos. destruct (Qle_bool 0 x) eqn:E; [apply Qle_bool_iff, E|lra]. Qed.
Lemma pos_ge x : (x <= pos x)%Q.
Proof. unfold pos. destruct (Qle_bool 0 x) eqn:E; [lra|]. apply Qle_bool_false in E. lra. Qed.
Lemma pos_le x y : (x <= y)%Q -> (0 <= y)%Q -> (pos x <= y)%Q.
Proof. unfold pos. destruct (Qle_bool 0 x); intros; lra. Qed.

Definition psum (rows : list (nat * Q * Q)) (g : nat) : Q :=
  Qsum (map (fun r => if Nat.eqb (fst (fst r)) g then pos (snd (fst r) * snd r) else 0%Q) rows).
Lemma psum_app a b g : (psum (a ++ b) g == psum a g + psum b g)%Q.
Proof. unfold psum. rewrite map_app, Qsum_app. reflexivity. Qed.
Lemma psum_0 rows g : (0 <= psum rows g)%Q.
Proof. unfold psum. apply Qsum_nonneg. intros x H. apply in_map_iff in H as (r & <- & _). destruct (Nat.eqb _ _); [apply pos_0|lra]. Qed.
Lemma share_psum ms keep g : (share_of (run_rows (filter keep ms)) g <= psum (run_rows ms) g)%Q.
Proof.
  induction ms as [|m ms IH]; [cbn; lra|]. cbn [filter]. destruct (keep m).
  - unfold share_of, psum, run_rows in *. cbn [map Qsum fst snd]. destruct (Nat.eqb (mr_gal m) g); [pose proof (pos_ge (mr_p m * mr_pfree m))|]; lra.
  - assert (psum (run_rows (m :: ms)) g >= psum (run_rows ms) g)%Q; [|lra].
    unfold psum, run_rows. cbn [map Qsum fst snd]. destruct (Nat.eqb (mr_gal m) g); [pose proof (pos_0 (mr_p m * mr_pfree m))|]; lra.
Qed.

(** ** one cluster *)
Lemma psum_notin f id l g : ~ In g (map (fun e => fst (fst e)) l) -> (psum (run_rows (Model.Runner.mem_of f id l)) g == 0)%Q.
Proof.
  induction l as [|[[a pf] o] l IH]; intros H; [reflexivity|]. cbn [map fst] in H. cbn [Model.Runner.mem_of flat_map]. unfold run_rows. rewrite map_app.
  change (psum (map (fun m => (mr_gal m, mr_p m, mr_pfree m)) (if Qlt_bool (1 # 100) (if mem_ok f o then pf else 0) || no_cand o then [mkMR id a (no_p o) (if mem_ok f o then pf else 0)] else []) ++ run_rows (Model.Runner.mem_of f id l)) g == 0)%Q.
  rewrite psum_app, IH by (intros X; apply H; right; exact X).
  destruct (_ || _); [|cbn; reflexivity]. unfold psum. cbn [map Qsum fst snd mr_gal]. destruct (Nat.eqb_spec a g) as [E|_]; [exfalso; apply H; left; exact E|]. ring.
Qed.
Lemma one_cluster f id pgal g nb : NoDup nb -> forall os,
  (forall o, In o os -> (0 <= no_p o <= 1)%Q /\ (mem_ok f o = true -> no_mask o = true)) ->
  let cl := Qsum (map (fun e => clm e g) (combine nb os)) in
  (0 <= cl <= 1)%Q /\
  (psum (run_rows (Model.Runner.mem_of f id (combine (combine nb (map (fun a => (1 - pgal a)%Q) nb)) os))) g <= cl * pos (1 - pgal g))%Q.
Proof.
  induction nb as [|a nb IH]; intros Hnd os HO; cbv zeta; [cbn; split; lra|]. destruct os as [|o os]; [cbn; split; lra|].
  inversion Hnd as [|? ? Ha Hd]; subst. cbn [map combine Qsum].
  specialize (IH Hd os (fun x Hx => HO x (or_intror Hx))). cbv zeta in IH. destruct IH as [I1 I2].
  destruct (HO o (or_introl eq_refl)) as [Hp Hm].
  cbn [Model.Runner.mem_of flat_map]. unfold run_rows. rewrite map_app.
  set (row := if Qlt_bool (1 # 100) (if mem_ok f o then (1 - pgal a)%Q else 0) || no_cand o then _ else _).
  set (rest := flat_map _ _) in *. change (map (fun m => (mr_gal m, mr_p m, mr_pfree m)) rest) with (run_rows rest).
  assert (X : forall u v, (psum (u ++ v) g == psum u g + psum v g)%Q) by (intros; apply psum_app). rewrite X. clear X.
  pose proof (pos_0 (1 - pgal g)) as P0. pose proof (pos_ge (1 - pgal g)) as P1.
  destruct (Nat.eqb_spec a g) as [->|Na].
  - assert (N1 : (Qsum (map (fun e => clm e g) (combine nb os)) == 0)%Q).
    { apply clm_notin. intros H. apply in_map_iff in H as ([u v] & Hu & Hin). cbn in Hu. subst u. apply in_combine_l in Hin. contradiction. }
    assert (N2 : (psum (run_rows rest) g == 0)%Q).
    { apply (psum_notin f id). intros H. apply in_map_iff in H as ([[u w] v] & Hu & Hin). cbn in Hu. subst u. apply in_combine_l in Hin. apply in_combine_l in Hin. contradiction. }
    rewrite N1, N2. unfold clm. cbn [fst snd]. rewrite Nat.eqb_refl. cbn [andb].
    assert (R : (psum (map (fun m => (mr_gal m, mr_p m, mr_pfree m)) row) g <= (if no_mask o && Qlt_bool 0 (no_p o) then no_p o else 0) * pos (1 - pgal g))%Q).
    { subst row. destruct (mem_ok f o) eqn:Em.
      - rewrite (Hm eq_refl). cbn [andb]. destruct (Qlt_bool 0 (no_p o)) eqn:Ep.
        + apply Qlt_bool_iff in Ep. assert (B : (0 <= no_p o * pos (1 - pgal g))%Q) by nra.
          destruct (_ || _); [|cbn; exact B]. unfold psum. cbn [map Qsum fst snd mr_gal mr_p mr_pfree]. rewrite Nat.eqb_refl.
          assert (pos (no_p o * (1 - pgal g)) <= no_p o * pos (1 - pgal g))%Q; [|lra]. apply pos_le; [nra|exact B].
        + assert (Z : (no_p o == 0)%Q). { destruct (Qlt_le_dec 0 (no_p o)) as [L|L]; [apply Qlt_bool_iff in L; congruence|lra]. }
          destruct (_ || _); [|cbn; lra]. unfold psum. cbn [map Qsum fst snd mr_gal mr_p mr_pfree]. rewrite Nat.eqb_refl.
          assert (pos (no_p o * (1 - pgal g)) <= 0)%Q; [|lra]. apply pos_le; [rewrite Z; lra|lra].
      - assert (B : (0 <= (if no_mask o && Qlt_bool 0 (no_p o) then no_p o else 0) * pos (1 - pgal g))%Q) by (destruct (_ && _); nra).
        destruct (_ || _); [|cbn; exact B]. unfold psum. cbn [map Qsum fst snd mr_gal mr_p mr_pfree]. rewrite Nat.eqb_refl.
        assert (pos (no_p o * 0) <= 0)%Q; [|lra]. apply pos_le; lra. }
    split; [destruct (_ && _); lra|]. rewrite Qplus_0_r, Qplus_0_r. exact R.
  - assert (R : (psum (map (fun m => (mr_gal m, mr_p m, mr_pfree m)) row) g == 0)%Q).
    { subst row. destruct (_ || _); [|reflexivity]. unfold psum. cbn [map Qsum fst snd mr_gal]. destruct (Nat.eqb_spec a g); [congruence|]. ring. }
    assert (K : clm (a, o) g = 0%Q) by (unfold clm; cbn [fst snd]; destruct (Nat.eqb_spec a g); [congruence|]; reflexivity).
    rewrite R, K, !Qplus_0_l. split; [lra|exact I2].
Qed.

(** ** the loop *)
Lemma proper_ok f proc c pf o : proper f proc -> In o (oc_nbrs (proc c pf)) -> (0 <= no_p o <= 1)%Q /\ (mem_ok f o = true -> no_mask o = true).
Proof.
  intros HP Ho. destruct (HP c pf o Ho) as [A B]. split; [exact A|]. intros E. apply B. unfold mem_ok in E. destruct (fl_memcuts f).
  - apply andb_prop in E. destruct E as [E1 E2]. split; [apply Qlt_bool_iff, E1|exact E2].
  - apply Qlt_bool_iff, E.
Qed.
Lemma loop_share f proc cs g : fl_perc f = true -> proper f proc -> Forall (fun c => NoDup (cl_nb c)) cs ->
  let s := run_loop f proc cs in (psum (run_rows (olist (rs_mem s))) g <= rs_pgal s g /\ psum (run_rows (olist (rs_mem s))) g <= 1)%Q.
Proof.
  intros Hf HP. cbv zeta. induction cs as [|c cs IH] using rev_ind; intros Hnd; [cbn; lra|].
  apply Forall_app in Hnd as [Hnd Hc]. apply Forall_inv in Hc. specialize (IH Hnd). pose proof (run_nonneg f proc cs g Hnd) as H0.
  rewrite run_loop_snoc. set (s := run_loop f proc cs) in *. unfold run_step, step. destruct (cl_nb c) as [|n l] eqn:E.
  - cbn [rs_mem rs_pgal]. rewrite olist_add. cbn [olist]. rewrite app_nil_r. exact IH.
  - rewrite <- E. destruct (oc_bad _) eqn:Eb; cbn [rs_mem rs_pgal]; rewrite olist_add; cbn [olist]; [rewrite app_nil_r; exact IH|].
    rewrite Hf. rewrite add_claims_claim by (rewrite E; exact Hc).
    destruct (fl_record f); cbn [olist].
    + unfold run_rows. rewrite map_app. change (map (fun m => (mr_gal m, mr_p m, mr_pfree m)) (olist (rs_mem s))) with (run_rows (olist (rs_mem s))).
      rewrite psum_app. set (pf := handed f (rs_pgal s) c). set (o := proc c pf) in *.
      destruct (one_cluster f (cl_id c) (rs_pgal s) g (cl_nb c) ltac:(rewrite E; exact Hc) (oc_nbrs o) (fun x Hx => proper_ok f proc c pf x HP Hx)) as [A B].
      change (Qsum (map (fun e => clm e g) (combine (cl_nb c) (oc_nbrs o)))) with (claim c o g) in *.
      assert (Epf : pf = map (fun a => (1 - rs_pgal s a)%Q) (cl_nb c)) by (subst pf; unfold handed; rewrite Hf; reflexivity). rewrite <- Epf in B.
      set (S0 := psum (run_rows (olist (rs_mem s))) g) in *. unfold run_rows in B. set (S1 := psum _ g) in B |- *. set (T := rs_pgal s g) in *. set (k := claim c o g) in *. clearbody S0 S1 T k.
      unfold pos in B. destruct (Qle_bool 0 (1 - T)) eqn:Q.
      * apply Qle_bool_iff in Q. split; nra.
      * apply Qle_bool_false in Q. split; lra.
    + rewrite app_nil_r. pose proof (claim_nonneg c (proc c (handed f (rs_pgal s) c)) g). split; lra.
Qed.
Lemma psum_filter ms p g : (psum (run_rows (filter p ms)) g <= psum (run_rows ms) g)%Q.
Proof.
  induction ms as [|m ms IH]; [cbn; lra|]. cbn [filter]. unfold psum, run_rows in *. destruct (p m); cbn [map Qsum fst snd]; destruct (Nat.eqb (mr_gal m) g); try (pose proof (pos_0 (mr_p m * mr_pfree m))); lra.
Qed.
Lemma run_share f proc cs mn cat ms keep g : fl_perc f = true -> proper f proc -> Forall (fun c => NoDup (cl_nb c)) cs ->
  postprocess mn (run_loop f proc cs) = Ok (cat, Some ms) -> (share_of (run_rows (filter keep ms)) g <= 1)%Q.
Proof.
  intros Hf HP Hnd H. apply post_ok in H as [_ H]. destruct (rs_mem (run_loop f proc cs)) as [l|] eqn:E; [|discriminate]. cbn [option_map] in H.
  remember (filter (fun m => Galfile.is_in (mr_id m) (map cr_id cat)) l) as l'. injection H as ->. subst l'.
  pose proof (share_psum (filter (fun m => Galfile.is_in (mr_id m) (map cr_id cat)) l) keep g) as A. pose proof (psum_filter l (fun m => Galfile.is_in (mr_id m) (map cr_id cat)) g) as B.
  destruct (loop_share f proc cs g Hf HP Hnd) as [_ C]. rewrite E in C. cbn [olist] in C. lra.
Qed.

(** ** tiles *)
Lemma share_app a b g : (share_of (a ++ b) g == share_of a g + share_of b g)%Q.
Proof. unfold share_of. rewrite map_app, Qsum_app. reflexivity. Qed.
Lemma file_share dec x cs g : of_a_run dec x -> (share_of (file_rows dec (Spec.Consolidate.mem_of cs (f_mem x))) g <= if has_galaxy dec g x then 1 else 0)%Q.
Proof.
  intros (f & proc & ks & mn & cat & ms & Hf & HP & Hnd & H & HM). destruct (has_galaxy dec g x) eqn:E.
  - pose proof (run_share f proc ks mn cat ms (fun r => existsb (Z.eqb (mr_id r)) (map c_id cs)) g Hf HP Hnd H) as A.
    assert (X : file_rows dec (Spec.Consolidate.mem_of cs (f_mem x)) = run_rows (filter (fun r => existsb (Z.eqb (mr_id r)) (map c_id cs)) ms)); [|rewrite X; exact A].
    clear -HM. induction HM as [|m r l l' [E1 E2] HM IH]; [reflexivity|]. unfold Spec.Consolidate.mem_of in *. cbn [filter]. rewrite E1. destruct (existsb _ _); [|exact IH].
    unfold file_rows, run_rows in *. cbn [map]. rewrite E2, IH. reflexivity.
  - clear HM. unfold has_galaxy in E. unfold Spec.Consolidate.mem_of. induction (f_mem x) as [|m l IH]; [cbn; lra|]. cbn [existsb] in E. apply Bool.orb_false_elim in E as [E1 E2]. specialize (IH E2).
    cbn [filter]. destruct (existsb (Z.eqb (m_id m)) (map c_id cs)); [|exact IH]. unfold share_of, file_rows in *. cbn [map Qsum]. rewrite E1. lra.
Qed.
Lemma rows_mwith dec (n : Z -> Z) l : file_rows dec (map (fun m => mwith m (n (m_id m))) l) = file_rows dec l.
Proof. unfold file_rows. rewrite map_map. reflexivity. Qed.
Lemma tiles_share dec q num g fs : (forall x, In x fs -> of_a_run dec x) -> forall i,
  (share_of (file_rows dec (mems_from q all_kept num i fs)) g <= inject_Z (Z.of_nat (List.length (filter (has_galaxy dec g) fs))))%Q.
Proof.
  induction fs as [|x fs IH]; intros HR i; [cbn; apply Qle_refl|]. cbn [mems_from]. unfold file_rows. rewrite map_app.
  change (share_of (file_rows dec (map (fun m => mwith m (num i (m_id m))) (Spec.Consolidate.mem_of (filter all_kept (kept q x)) (f_mem x))) ++ file_rows dec (mems_from q all_kept num (S i) fs)) g <= inject_Z (Z.of_nat (List.length (filter (has_galaxy dec g) (x :: fs)))))%Q.
  rewrite share_app, rows_mwith. specialize (IH (fun y Hy => HR y (or_intror Hy)) (S i)). pose proof (file_share dec x (filter all_kept (kept q x)) g (HR x (or_introl eq_refl))) as A.
  revert A. cbn [filter]. destruct (has_galaxy dec g x); intros A; [|lra]. cbn [List.length]. rewrite Nat2Z.inj_succ. unfold Z.succ. rewrite inject_Z_plus. change (inject_Z 1) with 1%Q. lra.
Qed.
Lemma filter_true {A} (p : A -> bool) l : (forall x, In x l -> p x = true) -> filter p l = l.
Proof. induction l as [|a l IH]; intros H; [reflexivity|]. cbn [filter]. rewrite (H a (or_introl eq_refl)), IH; [reflexivity|]. intros; apply H; right; assumption. Qed.
