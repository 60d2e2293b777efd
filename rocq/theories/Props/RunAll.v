(** C140, C141: runs over all pixels. *)
From Coq Require Import ZArith String Ascii.
From Verif.Base Require Import Py PyLemmas.
From Verif.Model Require Import Names RunAll.
From Verif.Spec Require Import RunAll.
From Verif.Proofs Require Import Names RunAll.
From Coq Require Import Lia List. Import ListNotations.
Local Open Scope list_scope.

(** the settings the workers see *)
Definition run_settings (a : args) (c : rcfg) (ns : Z) : rcfg := mkRcfg (match a_seedfile a with Some f => Some f | None => r_seed c end) ns.
(** A run that returns has run every pixel of the division with the given seed file, and its output is the merged files
    of exactly the pixels that have one (or the files that were there); the configuration is as before. *)
Theorem C140_run W a c c' fin lk : run W a c = (c', Ok (fin, lk)) -> c' = c /\
  exists ns pixels rs, splits W c = Ok (ns, pixels) /\ all_done W (a_perc_only a) (run_settings a c ns) pixels rs /\
    (a_consolidate a = false -> fin = None) /\
    (a_consolidate a = true -> (fin = Some Kept /\ a_check a = true /\ there W = (true, true)) \/
       exists l, fin = Some (Made l) /\ files_of w_perc rs l /\ l <> [] /\ merge_final W l = Ok tt) /\
    (a_like a = false -> lk = None) /\
    (a_like a = true -> (lk = Some Kept /\ a_check a = true /\ there_like W = true) \/
       exists l, lk = Some (Made l) /\ files_of w_like rs l /\ l <> [] /\ merge_like W l = Ok tt).
Proof.
  unfold run. intros H. destruct (a_specmode a && negb (a_keepz a))%bool; [discriminate|]. destruct (a_perc_only a && a_specmode a)%bool; [discriminate|].
  destruct (splits W c) as [[ns pixels]|e] eqn:Es; [|discriminate]. fold (run_settings a c ns) in H.
  destruct (gather _) as [rs|e] eqn:Eg; [|discriminate]. apply gather_ok in Eg.
  match type of H with context [match ?x with Ok fin => _ | Err e => _ end] => destruct x as [fin'|e] eqn:Ef; [|discriminate] end.
  match type of H with context [match ?x with Ok lk => _ | Err e => _ end] => destruct x as [lk'|e] eqn:El; [|discriminate] end.
  assert (c' = mkRcfg (r_seed c) (r_nside c) /\ fin' = fin /\ lk' = lk) as (-> & -> & ->) by (repeat split; congruence).
  split; [destruct c; reflexivity|]. exists ns, pixels, rs. split; [reflexivity|]. split; [exact Eg|].
  assert (K : forall check m t1 t2 merge get o, (do o <- consolidate check m t1 t2 merge (with_file get rs); Ok (Some o)) = Ok o ->
    (o = Some Kept /\ check = true /\ t1 = true /\ (m = true -> t2 = true)) \/ exists l, o = Some (Made l) /\ files_of get rs l /\ l <> [] /\ merge l = Ok tt).
  { intros check m t1 t2 merge get o Ho. unfold consolidate in Ho. destruct (check && _)%bool eqn:Ec.
    - left. cbn [bind] in Ho. apply andb_prop in Ec. destruct Ec as [-> Ec]. split; [congruence|]. split; [reflexivity|]. destruct t1, t2, m; try discriminate; auto.
    - right. exists (with_file get rs). destruct (with_file get rs) as [|x l] eqn:Ew; [discriminate Ho|].
      destruct (merge (x :: l)) as [[]|e]; [|discriminate]. cbn [bind] in Ho. split; [congruence|]. split; [rewrite <- Ew; apply with_file_ok|]. split; [discriminate|reflexivity]. }
  split; [intros X; rewrite X in Ef; congruence|]. split.
  { intros X. rewrite X in Ef. apply K in Ef. destruct Ef as [(-> & A & B & C)|Ef]; [left|right; exact Ef]. split; [reflexivity|]. split; [exact A|]. specialize (C eq_refl). destruct (there W) as [x y]. cbn in B, C. rewrite B, C. reflexivity. }
  split; [intros X; rewrite X in El; congruence|]. intros X. rewrite X in El. apply K in El. destruct El as [(-> & A & B & C)|El]; [left; auto|right; exact El].
Qed.
Print Assumptions C140_run.
(** The checks of the arguments: nothing is run and nothing changed if redshifts of spectroscopic seeds are not kept, or both modes are asked for. *)
Theorem C140_arguments W a c : (a_specmode a = true /\ (a_keepz a = false \/ a_perc_only a = true)) -> run W a c = (c, Err RuntimeError).
Proof. intros (A & B). unfold run. rewrite A. destruct (a_keepz a); [|reflexivity]. destruct B as [B| ->]; [discriminate|reflexivity]. Qed.
Print Assumptions C140_arguments.
(** Files that are there are kept when the check is on: then nothing is merged, whatever the workers returned. *)
Theorem C140_kept W a c ns pixels rs : (a_specmode a = true -> a_keepz a = true /\ a_perc_only a = false) -> splits W c = Ok (ns, pixels) ->
  all_done W (a_perc_only a) (run_settings a c ns) pixels rs -> a_check a = true -> there W = (true, true) -> there_like W = true ->
  run W a c = (c, Ok (if a_consolidate a then Some Kept else None, if a_like a then Some Kept else None)).
Proof.
  intros A Es D Hc Ht Hl. unfold run.
  assert (X : (a_specmode a && negb (a_keepz a))%bool = false /\ (a_perc_only a && a_specmode a)%bool = false).
  { destruct (a_specmode a); [|rewrite Bool.andb_false_r; auto]. destruct (A eq_refl) as [-> ->]. auto. }
  destruct X as [-> ->]. rewrite Es. fold (run_settings a c ns).
  assert (Eg : gather (map (work W (a_perc_only a) (run_settings a c ns)) pixels) = Ok rs).
  { clear -D. unfold all_done in D. induction D as [|p w l1 l2 E D IH]; [reflexivity|]. cbn [map gather]. rewrite E, IH. reflexivity. }
  rewrite Eg. unfold consolidate. rewrite Hc, Ht, Hl. cbn [fst snd andb orb negb bind]. destruct (a_consolidate a), (a_like a), c; reflexivity.
Qed.
Print Assumptions C140_kept.
(** A run with correct arguments whose workers all succeed, one of them with a catalog, succeeds if merging does. *)
Theorem C140_succeeds W a c ns pixels rs w : (a_specmode a = true -> a_keepz a = true /\ a_perc_only a = false) -> splits W c = Ok (ns, pixels) ->
  all_done W (a_perc_only a) (run_settings a c ns) pixels rs -> In w rs -> w_perc w <> None -> (a_like a = true -> w_like w <> None) ->
  (forall l, merge_final W l = Ok tt) -> (forall l, merge_like W l = Ok tt) -> exists fin lk, run W a c = (c, Ok (fin, lk)).
Proof.
  intros A Es D Iw Wp Wl Mf Ml. unfold run.
  assert (X : (a_specmode a && negb (a_keepz a))%bool = false /\ (a_perc_only a && a_specmode a)%bool = false).
  { destruct (a_specmode a); [|rewrite Bool.andb_false_r; auto]. destruct (A eq_refl) as [-> ->]. auto. }
  destruct X as [-> ->]. rewrite Es. fold (run_settings a c ns). rewrite (proj2 (gather_ok _ _ _) D).
  assert (K : forall check m t1 t2 merge get, (forall l, merge l = Ok tt) -> get w <> None -> exists o, consolidate check m t1 t2 merge (with_file get rs) = Ok o).
  { intros check m t1 t2 merge get Hm Hg. unfold consolidate. destruct (check && _)%bool; [eexists; reflexivity|].
    destruct (with_file get rs) as [|x l] eqn:Ew.
    - exfalso. destruct (get w) as [f|] eqn:Eg; [|congruence]. assert (I : In (w_pix w, f) (with_file get rs)) by (apply with_file_ok; exists w; auto). rewrite Ew in I. destruct I.
    - rewrite Hm. eexists; reflexivity. }
  assert (Ec : c = mkRcfg (r_seed c) (r_nside c)) by (destruct c; reflexivity).
  destruct (K (a_check a) true (fst (there W)) (snd (there W)) (merge_final W) w_perc Mf Wp) as (o & Eo).
  destruct (a_like a) eqn:Elk.
  - destruct (K (a_check a) false (there_like W) false (merge_like W) w_like Ml (Wl eq_refl)) as (o2 & Eo2). rewrite Eo, Eo2. cbn [bind]. destruct (a_consolidate a); rewrite <- Ec; eexists; eexists; reflexivity.
  - rewrite Eo. cbn [bind]. destruct (a_consolidate a); rewrite <- Ec; eexists; eexists; reflexivity.
Qed.
Print Assumptions C140_succeeds.
(** Finding: a run that fails in a worker leaves the configuration with its seed file and the resolution of the tiles, so
    that a second run on the same configuration is another one. *)
Theorem C140_restored_refuted W a c ns pixels p e : (a_specmode a = true -> a_keepz a = true /\ a_perc_only a = false) -> splits W c = Ok (ns, pixels) -> In p pixels ->
  work W (a_perc_only a) (run_settings a c ns) p = Err e -> exists e', run W a c = (run_settings a c ns, Err e').
Proof.
  intros A Es I E. unfold run.
  assert (X : (a_specmode a && negb (a_keepz a))%bool = false /\ (a_perc_only a && a_specmode a)%bool = false).
  { destruct (a_specmode a); [|rewrite Bool.andb_false_r; auto]. destruct (A eq_refl) as [-> ->]. auto. }
  destruct X as [-> ->]. rewrite Es. fold (run_settings a c ns). destruct (gather_err _ _ _ _ I E) as (e' & ->). exists e'. reflexivity.
Qed.
Print Assumptions C140_restored_refuted.
(** Finding: a run in which no pixel gives a catalog does not give an empty catalog, it fails. *)
Theorem C140_nothing_refuted W a c c' fin lk : (forall ns pixels rs, splits W c = Ok (ns, pixels) -> all_done W (a_perc_only a) (run_settings a c ns) pixels rs ->
    forall w, In w rs -> w_perc w = None) -> a_consolidate a = true -> (a_check a = false \/ there W <> (true, true)) -> run W a c <> (c', Ok (fin, lk)).
Proof.
  intros N Hc Ht H. destruct (C140_run W a c c' fin lk H) as (_ & ns & pixels & rs & Es & D & _ & K & _). destruct (K Hc) as [(_ & A & B)|(l & _ & F & Nl & _)].
  - destruct Ht as [Ht|Ht]; congruence.
  - destruct l as [|[p f] l]; [congruence|]. destruct (proj1 (proj1 F p f) (or_introl eq_refl)) as (w & Iw & _ & Ew). rewrite (N ns pixels rs Es D w Iw) in Ew. discriminate.
Qed.
Print Assumptions C140_nothing_refuted.
(** The error is that of subscripting an empty list, once the sky was divided and the workers came back. *)
Theorem C140_nothing W a c ns pixels rs : a_specmode a = false -> splits W c = Ok (ns, pixels) ->
  Forall2 (fun q w => work W (a_perc_only a) (run_settings a c ns) q = Ok w) pixels rs -> (forall w, In w rs -> w_perc w = None) ->
  a_consolidate a = true -> (a_check a = false \/ there W <> (true, true)) -> snd (run W a c) = Err IndexError.
Proof.
  intros Sp Es D N Hc Ht. unfold run. rewrite Sp, andb_false_r. cbn [andb]. rewrite Es.
  assert (G : gather (map (work W (a_perc_only a) (run_settings a c ns)) pixels) = Ok rs).
  { clear -D. induction D as [|q w l1 l2 E D IH]; [reflexivity|]. cbn [map gather]. rewrite E. cbn [bind]. rewrite IH. reflexivity. }
  unfold run_settings in G. rewrite G, Hc.
  assert (F : with_file w_perc rs = []).
  { clear -N. induction rs as [|w rs IH]; [reflexivity|]. unfold with_file in *. cbn [flat_map]. rewrite (N w (or_introl eq_refl)). apply IH. intros x I. apply N. right. exact I. }
  unfold consolidate. rewrite F. destruct (there W) as [t1 t2]. cbn [fst snd negb]. rewrite andb_true_r, andb_false_r, orb_false_r.
  destruct (a_check a); [|reflexivity]. destruct Ht as [Ht|Ht]; [discriminate|]. destruct t1, t2; try reflexivity. exfalso. apply Ht. reflexivity.
Qed.
Print Assumptions C140_nothing.
(** Finding: the likelihood catalog cannot be asked for with percolation_only, since those workers never name one. *)
Theorem C140_percolation_like_refuted W a c c' fin lk : (forall c0 p w, work W true c0 p = Ok w -> w_like w = None) -> a_perc_only a = true -> a_like a = true ->
  there_like W = false -> run W a c <> (c', Ok (fin, lk)).
Proof.
  intros N Hp Hl Ht H. destruct (C140_run W a c c' fin lk H) as (_ & ns & pixels & rs & Es & D & _ & _ & _ & K). destruct (K Hl) as [(_ & _ & B)|(l & _ & F & Nl & _)]; [congruence|].
  destruct l as [|[p f] l]; [congruence|]. destruct (proj1 (proj1 F p f) (or_introl eq_refl)) as (w & Iw & _ & Ew). rewrite Hp in D.
  assert (X : exists q, work W true (run_settings a c ns) q = Ok w).
  { clear -D Iw. unfold all_done in D. induction D as [|q x l1 l2 E D IH]; [destruct Iw|]. destruct Iw as [<-|Iw]; [exists q; exact E|apply IH, Iw]. }
  destruct X as (q & X). rewrite (N _ _ _ X) in Ew. discriminate.
Qed.
Print Assumptions C140_percolation_like_refuted.
Example C140_example : run (mkWorld (fun _ => Ok (4, [7; 8; 9])%Z) (fun _ _ p => Ok (mkWres p (Some 1%Z) (Some (p + 100)%Z) (if Z.eqb p 8 then None else Some (p + 200)%Z))) (fun _ => Ok tt) (fun _ => Ok tt) (true, false) false)
  (mkArgs true (Some 5%Z) true false true true true) (mkRcfg (Some 3%Z) 0) =
  (mkRcfg (Some 3%Z) 0, Ok (Some (Made [(7, 207); (9, 209)]%Z), Some (Made [(7, 107); (8, 108); (9, 109)]%Z))).
Proof. reflexivity. Qed.

(** ** The files of the tiles *)
(** Different tiles, of one or several divisions of the sky, have different names. *)
Theorem C141_names base n1 h1 n2 h2 : (0 <= n1)%Z -> (0 <= h1)%Z -> (0 <= n2)%Z -> (0 <= h2)%Z ->
  tile_base base n1 h1 = tile_base base n2 h2 -> n1 = n2 /\ h1 = h2.
Proof.
  intros A B C D E. unfold tile_base in E. apply app_inv_head in E. apply app_inv_head in E.
  apply split_at_bar in E; [|apply fmt_digits; assumption|apply fmt_digits; assumption]. destruct E as [E1 E2]. split; [exact (fmt_inj 1 n1 n2 A C E1)|exact (fmt_inj 5 h1 h2 B D E2)].
Qed.
Print Assumptions C141_names.
(** Tiles of one division have different names in the percolation-only mode. *)
Theorem C141_percolation_names_partial base n h1 h2 : (0 <= h1)%Z -> (0 <= h2)%Z -> perc_tile_base base n h1 = perc_tile_base base n h2 -> h1 = h2.
Proof. intros A B E. unfold perc_tile_base in E. apply app_inv_head in E. apply app_inv_head in E. exact (fmt_inj 5 h1 h2 A B E). Qed.
Print Assumptions C141_percolation_names_partial.
(** Finding: the resolution is not part of those names: after a change of the division the file of another tile is taken
    for the tile with the same number. *)
Theorem C141_percolation_names_refuted base n1 n2 h : perc_tile_base base n1 h = perc_tile_base base n2 h.
Proof. reflexivity. Qed.
Print Assumptions C141_percolation_names_refuted.
(** A percolation-only worker that is not interrupted leaves the catalog and its members (unless a catalog is there and
    is to be kept), and returns a file exactly if there is one in the end that it made or kept. *)
Theorem C141_worker r check d : let t := perc_only r check d in
  (check = true -> f_perc d <> None -> finished t d = d /\ snd t = true) /\
  (check = false \/ f_perc d = None -> match r with
     | Some (c, m) => finished t d = mkPdisk (Some (Some c)) (Some (Some m)) /\ snd t = true
     | None => finished t d = d /\ snd t = false
     end).
Proof.
  cbv zeta. unfold perc_only, finished. split.
  - intros -> N. destruct (f_perc d); [split; reflexivity|congruence].
  - intros H. destruct (f_perc d) as [x|]; destruct check; try (destruct H; discriminate); destruct r as [[c m]|]; split; reflexivity.
Qed.
Print Assumptions C141_worker.
(** Killed before the first write, the next execution does everything. *)
Theorem C141_restart_partial r c m d : f_perc d = None -> r = Some (c, m) ->
  finished (perc_only r true (killed_at 0 (perc_only r true d) d)) d = mkPdisk (Some (Some c)) (Some (Some m)).
Proof. intros N ->. unfold perc_only. rewrite N. cbn. rewrite N. reflexivity. Qed.
Print Assumptions C141_restart_partial.
(** Finding: killed while writing, the worker never finishes the pixel: a catalog begun or without members counts as
    done in every later execution. *)
Theorem C141_restart_refuted c m d k reruns : f_perc d = None -> f_mem d = None -> 1 <= k <= 3 ->
  let d1 := killed_at k (perc_only (Some (c, m)) true d) d in let again d := finished (perc_only (Some (c, m)) true d) d in
  Nat.iter reruns again d1 = d1 /\ snd (perc_only (Some (c, m)) true d1) = true /\ (f_perc d1 = Some None \/ f_mem d1 <> Some (Some m)).
Proof.
  intros N M Hk. cbv zeta. assert (X : exists x y, killed_at k (perc_only (Some (c, m)) true d) d = mkPdisk (Some x) y /\ (x = None \/ y <> Some (Some m))).
  { unfold killed_at, perc_only. rewrite N, M. cbn [fst length]. assert (k = 1 \/ k = 2 \/ k = 3) as [->|[->| ->]] by lia; cbn; eexists; eexists; (split; [reflexivity|]); [left; reflexivity|right; discriminate|right; discriminate]. }
  destruct X as (x & y & -> & X). split; [|split; [reflexivity|]].
  - induction reruns as [|n IH]; [reflexivity|]. cbn [Nat.iter nat_rect]. change (nat_rect _ _ _ n) with (Nat.iter n (fun d => finished (perc_only (Some (c, m)) true d) d) (mkPdisk (Some x) y)). rewrite IH. reflexivity.
  - cbn. destruct X as [->|X]; [left; reflexivity|right; exact X].
Qed.
Print Assumptions C141_restart_refuted.
Example C141_example : tile_base (s_ "run") 4 17 = s_ "run_4_00017" /\ perc_tile_base (s_ "run") 4 17 = s_ "run_00017" /\
  finished (perc_only (Some (1, 2)%Z) true (mkPdisk None None)) (mkPdisk None None) = mkPdisk (Some (Some 1%Z)) (Some (Some 2%Z)).
Proof. vm_compute. repeat split; reflexivity. Qed.
(** Killed after the last write, or later, all is there. *)
Theorem C141_killed_late r check d k : 4 <= k -> killed_at k (perc_only r check d) d = finished (perc_only r check d) d.
Proof.
  intros K. unfold killed_at, finished, perc_only. assert (M : Nat.min k 0 = 0 /\ Nat.min k 4 = 4) by lia. destruct M as [M0 M4].
  destruct (f_perc d), check, r as [[c m]|]; cbn [fst length Nat.sub]; rewrite ?M0, ?M4; reflexivity.
Qed.
Print Assumptions C141_killed_late.
