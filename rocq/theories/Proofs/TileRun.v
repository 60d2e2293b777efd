From Coq Require Import QArith ZArith Permutation.
From Verif.Base Require Import Py PyLemmas Sort.
From Verif.Model Require Import Restart RunAll Consolidate TileRun.
From Verif.Spec Require Import Restart Consolidate TileRun.
From Verif.Proofs Require Import Restart Consolidate RunAll.
From Coq Require Import Lia List. Import ListNotations.
Local Open Scope nat_scope.

Lemma good_result R d : good R d -> snd (worker R true d) = Ok (match d_perc (expected R) with Full _ => Some tt | _ => None end).
Proof.
  intros H. unfold worker, expected. destruct H as [|c E1|c l E1 E2|c l p m E1 E2 E3]; cbn.
  - destruct (r_first R) as [c|]; [|reflexivity]. unfold do_like. cbn. destruct (r_like R c) as [l|]; [|reflexivity].
    unfold do_perc. cbn. destruct (r_perc R l) as [[p m]|]; reflexivity.
  - rewrite E1. unfold do_like. cbn. destruct (r_like R c) as [l|]; [|reflexivity].
    unfold do_perc. cbn. destruct (r_perc R l) as [[p m]|]; reflexivity.
  - rewrite E1, E2. unfold do_like. cbn. unfold do_perc. cbn. destruct (r_perc R l) as [[p m]|]; reflexivity.
  - rewrite E1, E2, E3. reflexivity.
Qed.

Section Tiles.
  Variables (asort : list Q -> list nat) (q : pcut) (R : Z -> Restart.runs) (cat_of : Z -> list cluster) (mem_of : Z -> list member).

  Lemma gather_ext {A B} (f g : A -> res B) l : (forall x, In x l -> f x = g x) -> gather (map f l) = gather (map g l).
  Proof. intros H. induction l as [|x l IH]; cbn; [reflexivity|]. rewrite (H x (or_introl eq_refl)), IH by (intros; apply H; right; assumption). reflexivity. Qed.
  Lemma with_file_fst rs pf : (forall w, In w rs -> w_perc w = None \/ w_perc w = Some (w_pix w)) -> In pf (with_file w_perc rs) -> snd pf = fst pf /\ exists w, In w rs /\ w_pix w = fst pf.
  Proof.
    intros H I. unfold with_file in I. apply in_flat_map in I. destruct I as (w & Iw & I). destruct (H w Iw) as [E|E]; rewrite E in I; [destruct I|]. destruct I as [<-|[]]. cbn. eauto.
  Qed.
  Lemma work_pix disks pixels rs : gather (map (tile_work R disks) pixels) = Ok rs -> forall w, In w rs -> In (w_pix w) pixels /\ (w_perc w = None \/ w_perc w = Some (w_pix w)).
  Proof.
    intros H w Iw. apply gather_ok in H. induction H as [|p x ps xs E F IH]; [destruct Iw|]. destruct Iw as [<-|Iw].
    - unfold tile_work in E. destruct (snd (worker (R p) true (disks p))) as [r|]; [|discriminate]. injection E as <-. cbn. destruct r; auto.
    - destruct (IH Iw). split; [right; assumption|assumption].
  Qed.

  Lemma run_same pixels disks : (forall p, In p pixels -> good (R p) (disks p)) ->
    tile_run asort q R cat_of mem_of pixels disks =
      match tile_files R cat_of mem_of pixels with
      | [] => Err IndexError
      | fs => Consolidate.consolidate asort q (map (fun f => match kept q f with [] => mkFile (f_hpix f) (f_cat f) [] | _ => f end) fs)
      end.
  Proof.
    intros H. unfold tile_run.
    set (file_of := fun p => match tile_of (R p) cat_of mem_of with Some _ => Some p | None => None end).
    assert (G : gather (map (tile_work R disks) pixels) = Ok (map (fun p => mkWres p None None (file_of p)) pixels)).
    { apply gather_ok. clear -H. induction pixels as [|p ps IH]; cbn; constructor; [|apply IH; intros; apply H; right; assumption].
      unfold tile_work. rewrite (good_result _ _ (H p (or_introl eq_refl))). cbn [bind]. subst file_of. cbv beta. unfold expected, tile_of.
      destruct (r_first (R p)) as [c|]; [|reflexivity]. destruct (r_like (R p) c) as [l|]; [|reflexivity]. destruct (r_perc (R p) l) as [[x m]|]; reflexivity. }
    rewrite G. cbn [bind].
    assert (W : with_file w_perc (map (fun p => mkWres p None None (file_of p)) pixels) = map (fun f => (f_hpix f, f_hpix f)) (tile_files R cat_of mem_of pixels)).
    { clear. unfold with_file. induction pixels as [|p ps IH]; cbn; [reflexivity|]. subst file_of. cbv beta in *. rewrite IH. destruct (tile_of (R p) cat_of mem_of) as [[c m]|]; reflexivity. }
    rewrite W.
    assert (F : gather (map (fun pf => read_tile q cat_of mem_of (run_full (R (snd pf)) true (disks (snd pf))) (fst pf)) (map (fun f => (f_hpix f, f_hpix f)) (tile_files R cat_of mem_of pixels)))
      = Ok (map (fun f => match kept q f with [] => mkFile (f_hpix f) (f_cat f) [] | _ => f end) (tile_files R cat_of mem_of pixels))).
    { rewrite map_map. apply gather_ok. clear -H. induction pixels as [|p ps IH]; cbn; [constructor|].
      destruct (tile_of (R p) cat_of mem_of) as [[c m]|] eqn:E; [|apply IH; intros; apply H; right; assumption]. cbn. constructor; [|apply IH; intros; apply H; right; assumption].
      cbn [fst snd f_hpix]. rewrite (good_full _ _ (H p (or_introl eq_refl))). unfold tile_of in E. unfold expected, read_tile, kept. cbn [f_hpix f_cat].
      destruct (r_first (R p)) as [c0|]; [|discriminate]. destruct (r_like (R p) c0) as [l|]; [|discriminate]. destruct (r_perc (R p) l) as [[x y]|]; [|discriminate]. injection E as <- <-. cbn.
      destruct (filter _ (cat_of x)); reflexivity. }
    destruct (tile_files R cat_of mem_of pixels) as [|f fs]; [reflexivity|]. cbn [map] in F |- *. rewrite F. reflexivity.
  Qed.

  Let trim (f : pfile) : pfile := match kept q f with [] => mkFile (f_hpix f) (f_cat f) [] | _ => f end.
  Lemma trim_kept f : kept q (trim f) = kept q f.
  Proof. unfold trim. destruct (kept q f) eqn:E; [|exact E]. unfold kept in *. exact E. Qed.
  Lemma trim_ok f : file_ok q f -> file_ok q (trim f).
  Proof.
    intros (A & B). split; [unfold trim; destruct (kept q f); exact A|]. rewrite trim_kept. unfold trim. destruct (kept q f) as [|c l] eqn:E; [intros c []|]. intros c' Hc. apply B. first [exact Hc|rewrite E; exact Hc].
  Qed.
  Lemma trim_cats num fs : forall i, cats_from q all_kept num i (map trim fs) = cats_from q all_kept num i fs.
  Proof. induction fs as [|f fs IH]; intros i; cbn; [reflexivity|]. rewrite trim_kept, IH. reflexivity. Qed.
  Lemma trim_mems num fs : forall i, mems_from q all_kept num i (map trim fs) = mems_from q all_kept num i fs.
  Proof.
    induction fs as [|f fs IH]; intros i; cbn; [reflexivity|]. rewrite trim_kept, IH. f_equal. unfold trim. destruct (kept q f) eqn:E; [|reflexivity]. cbn. unfold Spec.Consolidate.mem_of. cbn.
    clear. induction (f_mem f) as [|m l IH]; [reflexivity|exact IH].
  Qed.
  Lemma run_catalog pixels : argsort_spec asort -> (forall f, In f (tile_files R cat_of mem_of pixels) -> file_ok q f) ->
    (exists f, In f (tile_files R cat_of mem_of pixels) /\ kept q f <> []) ->
    exists cat mem num, tile_run asort q R cat_of mem_of pixels (fun _ => empty_disk) = Ok (cat, mem) /\ map c_id cat = seqZ 1 (List.length cat) /\ by_like cat /\
      Permutation cat (cats_from q all_kept num 0 (tile_files R cat_of mem_of pixels)) /\ mem = mems_from q all_kept num 0 (tile_files R cat_of mem_of pixels).
  Proof.
    intros HA HF (f & Hf & Hk). rewrite run_same by (intros; apply G0). destruct (tile_files R cat_of mem_of pixels) as [|f0 fs] eqn:E; [destruct Hf|]. rewrite <- E in *.
    destruct (consolidate_spec asort q (map trim (tile_files R cat_of mem_of pixels)) HA) as (cat & mem & num & S1 & S2 & S3 & S4 & S5).
    - intros g Hg. apply in_map_iff in Hg. destruct Hg as (g' & <- & Hg). apply trim_ok, HF, Hg.
    - exists (trim f). split; [apply in_map, Hf|rewrite trim_kept; exact Hk].
    - exists cat, mem, num. rewrite trim_cats in S4. rewrite trim_mems in S5. auto.
  Qed.
End Tiles.

Lemma cats_In q p num fs c : forall i, In c (cats_from q p num i fs) -> exists f c0 n, In f fs /\ In c0 (kept q f) /\ c = cwith c0 n.
Proof.
  induction fs as [|f fs IH]; intros i H; cbn in H; [destruct H|]. apply in_app_or in H. destruct H as [H|H].
  - apply in_map_iff in H. destruct H as (c0 & <- & H). apply filter_In in H. destruct H as [H _]. exists f, c0, (num i (c_id c0)). repeat split; [left; reflexivity|exact H].
  - destruct (IH _ H) as (g & c0 & n & A & B & C). exists g, c0, n. repeat split; [right; exact A|exact B|exact C].
Qed.
Lemma cats_pos q num fs : forall i, map c_pos (cats_from q all_kept num i fs) = concat (map (fun f => map c_pos (kept q f)) fs).
Proof. induction fs as [|f fs IH]; intros i; cbn; [reflexivity|]. rewrite map_app, IH. f_equal. unfold all_kept. rewrite filter_all, map_map. reflexivity. Qed.
Lemma files_pix R co mo pixels f : In f (tile_files R co mo pixels) -> In (f_hpix f) pixels /\ tile_of (R (f_hpix f)) co mo = Some (f_cat f, f_mem f).
Proof.
  induction pixels as [|p ps IH]; cbn; [intros []|]. destruct (tile_of (R p) co mo) as [[c m]|] eqn:E.
  - intros [<-|H]; [cbn; auto|]. destruct (IH H). auto.
  - intros H. destruct (IH H). auto.
Qed.
Lemma nodup_parts q fs : (forall f, In f fs -> NoDup (map c_pos (f_cat f))) -> NoDup (map f_hpix fs) -> NoDup (concat (map (fun f => map c_pos (kept q f)) fs)).
Proof.
  induction fs as [|f fs IH]; intros H N; cbn; [constructor|]. inversion N as [|? ? N1 N2]; subst.
  assert (A : forall (l m : list Z), NoDup l -> NoDup m -> (forall x, In x l -> ~ In x m) -> NoDup (l ++ m)).
  { clear. induction l as [|x l IH]; intros m Hl Hm D; cbn; [exact Hm|]. inversion Hl; subst. constructor.
    - rewrite in_app_iff. intros [X|X]; [contradiction|]. exact (D x (or_introl eq_refl) X).
    - apply IH; auto. intros y Hy. apply D. right. exact Hy. }
  apply A.
  - apply NoDup_map_filter. apply H. left. reflexivity.
  - apply IH; [|exact N2]. intros g Hg. apply H. right. exact Hg.
  - intros x Hx Hy. apply in_map_iff in Hx. destruct Hx as (c & <- & Hc). apply filter_In in Hc. destruct Hc as [_ Hc]. unfold in_pixel_cut in Hc. apply andb_prop in Hc. destruct Hc as [Hc _]. apply andb_prop in Hc. destruct Hc as [Hc _]. apply Z.eqb_eq in Hc.
    apply in_concat in Hy. destruct Hy as (l & Hl & Hy). apply in_map_iff in Hl. destruct Hl as (g & <- & Hg). apply in_map_iff in Hy. destruct Hy as (d & Ed & Hd). apply filter_In in Hd. destruct Hd as [_ Hd].
    unfold in_pixel_cut in Hd. apply andb_prop in Hd. destruct Hd as [Hd _]. apply andb_prop in Hd. destruct Hd as [Hd _]. apply Z.eqb_eq in Hd.
    apply N1. rewrite <- Hc, <- Ed, Hd. apply in_map, Hg.
Qed.
Lemma files_nodup R co mo pixels : NoDup pixels -> NoDup (map f_hpix (tile_files R co mo pixels)).
Proof.
  intros N. induction pixels as [|p ps IH]; cbn; [constructor|]. inversion N; subst. destruct (tile_of (R p) co mo) as [[c m]|]; cbn; [|apply IH; assumption]. constructor; [|apply IH; assumption].
  intros H. apply in_map_iff in H. destruct H as (f & E & Hf). apply files_pix in Hf. rewrite E in Hf. tauto.
Qed.

Lemma stuck_still used R d k : stuck used d -> run_once R true k d = d.
Proof.
  intros H. unfold run_once, crash, worker. destruct H as [(A & B)|[(A & B & C)|[(A & B & C)|(A & B & c & C & _)]]].
  - rewrite A. cbn [exists_file andb]. unfold do_like. rewrite B, A. cbn. rewrite firstn_nil. reflexivity.
  - assert (E : exists_file (d_first d) = true) by (destruct (d_first d); [congruence|reflexivity|reflexivity]). rewrite E. cbn [andb]. unfold do_like. rewrite B. cbn [exists_file andb]. unfold do_perc. rewrite C, B. cbn. rewrite firstn_nil. reflexivity.
  - assert (E : exists_file (d_first d) = true) by (destruct (d_first d); [congruence|reflexivity|reflexivity]). assert (E' : exists_file (d_like d) = true) by (destruct (d_like d); [congruence|reflexivity|reflexivity]).
    rewrite E. cbn [andb]. unfold do_like. rewrite E'. cbn [andb]. unfold do_perc. rewrite C. cbn. rewrite firstn_nil. reflexivity.
  - assert (E : exists_file (d_first d) = true) by (destruct (d_first d); [congruence|reflexivity|reflexivity]). assert (E' : exists_file (d_like d) = true) by (destruct (d_like d); [congruence|reflexivity|reflexivity]).
    rewrite E. cbn [andb]. unfold do_like. rewrite E'. cbn [andb]. unfold do_perc. rewrite C. cbn. rewrite firstn_nil. reflexivity.
Qed.
Lemma full_once R d : run_full R true d = run_once R true (List.length (fst (worker R true d))) d.
Proof. unfold run_full, run_once, crash. rewrite firstn_all. reflexivity. Qed.
Lemma stuck_result used R d : stuck used d -> snd (worker R true d) = Err OSError \/ (snd (worker R true d) = Ok (Some tt) /\ d_perc d <> Absent).
Proof.
  intros H. unfold worker. destruct H as [(A & B)|[(A & B & C)|[(A & B & C)|(A & B & c & C & _)]]].
  - rewrite A. cbn [exists_file andb]. unfold do_like. rewrite B, A. cbn. auto.
  - assert (E : exists_file (d_first d) = true) by (destruct (d_first d); [congruence|reflexivity|reflexivity]). rewrite E. cbn [andb]. unfold do_like. rewrite B. cbn [exists_file andb]. unfold do_perc. rewrite C, B. cbn. auto.
  - assert (E : exists_file (d_first d) = true) by (destruct (d_first d); [congruence|reflexivity|reflexivity]). assert (E' : exists_file (d_like d) = true) by (destruct (d_like d); [congruence|reflexivity|reflexivity]).
    rewrite E. cbn [andb]. unfold do_like. rewrite E'. cbn [andb]. unfold do_perc. rewrite C. cbn. right. split; [reflexivity|discriminate].
  - assert (E : exists_file (d_first d) = true) by (destruct (d_first d); [congruence|reflexivity|reflexivity]). assert (E' : exists_file (d_like d) = true) by (destruct (d_like d); [congruence|reflexivity|reflexivity]).
    rewrite E. cbn [andb]. unfold do_like. rewrite E'. cbn [andb]. unfold do_perc. rewrite C. cbn. right. split; [reflexivity|discriminate].
Qed.
Lemma stuck_restarts used R d ks : stuck used d -> restarts R true ks d = d.
Proof. intros H. induction ks as [|k ks IH]; [reflexivity|]. cbn. fold (restarts R true ks (run_once R true k d)). rewrite (stuck_still used R d k H). exact IH. Qed.
