(** C131, C132: maps read for a region of the sky. *)
From Verif.Base Require Import Py PyLemmas.
From Verif.Model Require Import SubPix.
From Verif.Spec Require Import SubPix.
From Verif.Proofs Require Import SubPix.
From Coq Require Import PeanoNat Lia List. Import ListNotations.

(** * C131 *)
(** C131: a map read for a region has the values of the whole map everywhere in the region. *)
Theorem C131_region : forall {V} r2n D s c hpix border near (m : nat -> option V) p, s <= D -> c <= D ->
  (border = true -> exists h, hpix = [h]) -> in_region r2n D s hpix p ->
  exists pix, region_pixels r2n (Some s) hpix border c near = Ok pix /\ read_map D c pix m p = m p.
Proof.
  intros V r2n D s c hpix border near m p Hs Hc Hb Hp. pose proof (inner_has r2n D s c hpix p Hs Hc Hp) as I. unfold region_pixels, subpix.
  destruct hpix as [|h0 rest]; [destruct Hp as (h & [] & _)|].
  destruct border.
  - destruct (Hb eq_refl) as [h [= -> ->]]. cbn [List.length Nat.eqb negb andb]. eexists. split; [reflexivity|]. cbn [read_map].
    destruct (existsb _ _) eqn:E; [reflexivity|]. exfalso. apply Bool.not_true_iff_false in E. apply E, existsb_in, nodup_In, in_app_iff. left. exact I.
  - cbn [andb]. eexists. split; [reflexivity|]. cbn [read_map]. destruct (existsb _ _) eqn:E; [reflexivity|]. exfalso. apply Bool.not_true_iff_false in E. apply E, existsb_in. exact I.
Qed.
Print Assumptions C131_region.
(** C131: also in the border, wherever the pixels found around the region reach. *)
Theorem C131_border : forall {V} r2n D s c h near (m : nat -> option V) p e, Nat.max (c + 2) (s + 2) <= D ->
  In e (near (Nat.max (c + 2) (s + 2))) -> lies_in D (Nat.max (c + 2) (s + 2)) (r2n (Nat.max (c + 2) (s + 2)) e) p ->
  exists pix, region_pixels r2n (Some s) [h] true c near = Ok pix /\ read_map D c pix m p = m p.
Proof.
  intros V r2n D s c h near m p e HD He Hp. apply lies_parent in Hp. eexists. split; [reflexivity|]. cbn [read_map].
  destruct (existsb _ _) eqn:E; [reflexivity|]. exfalso. apply Bool.not_true_iff_false in E. apply E, existsb_in, nodup_In, in_app_iff. right.
  apply in_map_iff. exists e. split; [|exact He]. rewrite <- Hp. apply parent_parent. lia.
Qed.
Print Assumptions C131_border.
(** C131: without a region the whole map is read. *)
Theorem C131_whole : forall {V} r2n s c border near (m : nat -> option V) D p, exists pix, region_pixels r2n s [] border c near = Ok pix /\ read_map D c pix m p = m p.
Proof. intros. eexists. split; reflexivity. Qed.
Print Assumptions C131_whole.
(** C131: what is read is never anything else than the map. *)
Theorem C131_sound : forall {V} D c pix (m : nat -> option V) p v, read_map D c pix m p = Some v -> m p = Some v.
Proof. intros V D c [l|] m p v; cbn [read_map]; [|auto]. destruct (existsb _ _); [auto|discriminate]. Qed.
Print Assumptions C131_sound.
(** C131: several pixels with a border are refused. *)
Theorem C131_refused : forall r2n s c h1 h2 rest near, region_pixels r2n s (h1 :: h2 :: rest) true c near = Err NotImplementedError.
Proof. reflexivity. Qed.
Print Assumptions C131_refused.
Example C131_ex : in_region (fun _ h => h) 3 1 [5] 83 /\ region_pixels (fun _ h => h) (Some 1) [5] true 2 (fun _ => [350; 400]) = Ok (Some [20; 22; 23; 21; 25]) /\
  region_pixels (fun _ h => h) (Some 3) [85; 86; 90] false 2 (fun _ => []) = Ok (Some [21; 21; 22]).
Proof. split; [exists 5; split; [left; reflexivity|unfold lies_in; cbn; lia]|]. vm_compute. auto. Qed.

(** * C132 *)
(** C132: the area at a depth is that of the pixels of the region, each once. *)
Theorem C132_depth : forall r2n D s hpix valid l, hpix <> [] -> s <= D -> area_pixels r2n D s hpix false valid = Ok l ->
  (forall p, In p l <-> in_region r2n D s hpix p) /\ (NoDup hpix -> (forall a b, r2n s a = r2n s b -> a = b) -> NoDup l).
Proof.
  intros r2n D s hpix valid l Hn Hs E. destruct hpix as [|h0 rest]; [congruence|]. cbn [area_pixels] in E. set (hp := h0 :: rest) in *. assert (El : l = flat_map (fun h => children s D (r2n s h)) hp) by congruence. subst l. clear E. split.
  - intros p. rewrite in_flat_map. split.
    + intros (h & Hh & Hc). exists h. split; [exact Hh|]. apply lies_parent, children_iff; assumption.
    + intros (h & Hh & L). exists h. split; [exact Hh|]. apply children_iff; [exact Hs|]. apply lies_parent, L.
  - intros Hd Hi. clearbody hp. clear Hn h0 rest. induction hp as [|h t IH]; [constructor|]. cbn [flat_map]. apply NoDup_cons_iff in Hd. destruct Hd as [Hh Hd].
    assert (Nd : forall a b : list nat, NoDup a -> NoDup b -> (forall x, In x a -> ~ In x b) -> NoDup (a ++ b)).
    { clear. induction a as [|x a IH]; intros b Ha Hb Hx; [exact Hb|]. apply NoDup_cons_iff in Ha. cbn [app]. constructor; [rewrite in_app_iff; intros [H|H]; [tauto|apply (Hx x (or_introl eq_refl) H)]|]. apply IH; [tauto|exact Hb|intros y Hy; apply Hx; right; exact Hy]. }
    apply Nd; [|apply IH, Hd|].
    + unfold children. apply FinFun.Injective_map_NoDup; [intros x y; lia|apply seq_NoDup].
    + intros x Hx Hy. apply children_iff in Hx; [|exact Hs]. apply in_flat_map in Hy. destruct Hy as (h' & Hh' & Hy). apply children_iff in Hy; [|exact Hs]. apply Hh. replace h with h' by (apply Hi; congruence). exact Hh'.
Qed.
Print Assumptions C132_depth.
(** C132: with a border there is no such area. *)
Theorem C132_border : forall r2n D s h rest valid, area_pixels r2n D s (h :: rest) true valid = Err RuntimeError.
Proof. reflexivity. Qed.
Print Assumptions C132_border.
(** C132, for a region of pixels no smaller than those of the coverage and without a border: the area of a volume-limited survey is
    that of the map in the region. *)
Theorem C132_vlim_partial : forall {V} r2n D s c hpix near (m : nat -> option V) all pix, s <= c -> c <= D -> hpix <> [] ->
  region_pixels r2n (Some s) hpix false c near = Ok pix ->
  forall p, In p (vlim_pixels D c pix m all) <-> In p all /\ m p <> None /\ in_region r2n D s hpix p.
Proof.
  intros V r2n D s c hpix near m all pix Hs Hc Hn E p. destruct hpix as [|h0 rest]; [congruence|]. cbn [region_pixels subpix andb] in E. fold (inner r2n s c (h0 :: rest)) in E. assert (Ep : pix = Some (inner r2n s c (h0 :: rest))) by congruence. subst pix. clear E.
  unfold vlim_pixels. rewrite filter_In. cbn [read_map]. destruct (existsb _ _) eqn:X.
  - apply existsb_in in X. pose proof (inner_only r2n D s c _ p Hs Hc X). destruct (m p); intuition congruence.
  - apply Bool.not_true_iff_false in X. split; [intros [_ F]; discriminate|]. intros (_ & _ & R). exfalso. apply X, existsb_in. apply inner_has; [lia|exact Hc|exact R].
Qed.
Print Assumptions C132_vlim_partial.
(** Finding: the areas of a volume-limited survey are of everything that was read, not of the region: for a region of pixels smaller
    than those of the coverage of the map, the whole of these counts.  (The area at a depth is cut to the region.) *)
Theorem C132_vlim_refuted : forall r2n D s c h near, c < s -> s <= D -> exists (m : nat -> option nat) all pix p,
  region_pixels r2n (Some s) [h] false c near = Ok pix /\ In p (vlim_pixels D c pix m all) /\ ~ in_region r2n D s [h] p.
Proof.
  intros r2n D s c h near Hc Hs. set (q := parent s c (r2n s h)).
  assert (K : 4 <= 4 ^ (s - c)) by (change 4 with (4 ^ 1) at 1; apply Nat.pow_le_mono_r; lia).
  (* another pixel of order s in the same pixel of the coverage *)
  assert (X : exists r', parent s c r' = q /\ r' <> r2n s h).
  { assert (In (q * 4 ^ (s - c)) (children c s q) /\ In (q * 4 ^ (s - c) + 1) (children c s q)) as [A B].
    { unfold children. split; apply in_map_iff; [exists 0|exists 1]; (split; [lia|apply in_seq; lia]). }
    apply children_iff in A; [|lia]. apply children_iff in B; [|lia]. destruct (Nat.eq_dec (q * 4 ^ (s - c)) (r2n s h)) as [E|E]; [exists (q * 4 ^ (s - c) + 1); split; [exact B|lia]|exists (q * 4 ^ (s - c)); auto]. }
  destruct X as (r' & Hr' & Hn). set (p := r' * 4 ^ (D - s)). assert (P : parent D s p = r') by (apply lies_parent; unfold lies_in, p; pose proof (pow4 (D - s)); nia).
  exists (fun _ => Some 0), [p], (Some [q]), p. split; [|split].
  - cbn [region_pixels subpix andb]. destruct (Nat.eqb_spec s c); [lia|]. destruct (Nat.ltb_spec c s); [reflexivity|lia].
  - unfold vlim_pixels. apply filter_In. split; [left; reflexivity|]. cbn [read_map existsb]. assert (E : parent D c p = q) by (rewrite <- (parent_parent D s c p) by lia; rewrite P; exact Hr'). rewrite E, Nat.eqb_refl. reflexivity.
  - intros (h' & [<-|[]] & L). apply lies_parent in L. congruence.
Qed.
Print Assumptions C132_vlim_refuted.
