(** C31, C32, C63: background lookups. *)
From Coq Require Import Qround Qabs Sorting.Sorted Lqa.
From Verif.Base Require Import Py PyLemmas.
From Verif.Model Require Import Bkg.
From Verif.Spec Require Import Bkg.
From Verif.Proofs Require Bkg.

(** C31.  For every well-formed table and every query whose chisq is not exactly the lowest edge: inf when
    chisq or refmag is outside of the table, and otherwise the density of the bin that contains (chisq, refmag)
    at the nearest tabulated redshift (inf if that is 0 and zeros are not allowed). *)
Theorem C31_lookup_partial : forall b zsize allow0 z chisq refmag, bkg_ok b zsize ->
  ~ at_lower_edge (b_chi b) chisq ->
  exists r, sigma_g_lookup b allow0 z chisq refmag = Ok r /\
    (outside b chisq refmag -> r = Inf) /\
    (~ outside b chisq refmag -> exists i j k v,
       in_bin (b_mag b) (b_magsize b) refmag i /\ in_bin (b_chi b) (b_chisize b) chisq j /\ nearest (b_z b) z k /\
       cell3 (b_sig b) i j k = Some v /\ reported allow0 v r).
Proof.
  intros b zsize allow0 z chisq refmag Hok He.
  destruct (Verif.Proofs.Bkg.lookup_general b zsize allow0 z chisq refmag Hok) as (r & E & H1 & H2).
  exists r. split; [exact E|]. split; [exact H1|]. intros Ho. destruct (H2 Ho) as (i & j & k & v & A & B & C & D & [[_ F]|[F _]]); [|contradiction].
  exists i, j, k, v. auto 10.
Qed.
Print Assumptions C31_lookup_partial.
(** a point is in at most one bin *)
Theorem C31_bin_unique : forall bins size x i j, StronglySorted Qlt bins ->
  in_bin bins size x i -> in_bin bins size x j -> i = j.
Proof. exact Verif.Proofs.Bkg.in_bin_unique. Qed.
Print Assumptions C31_bin_unique.
(** Finding: a galaxy exactly on the lowest chisq edge (chisq = 0, a perfect colour match) gets the density of
    the LAST chisq bin, in every table. *)
Theorem C31_lowest_edge_refuted : forall b zsize allow0 z chisq refmag, bkg_ok b zsize ->
  at_lower_edge (b_chi b) chisq -> ~ outside b chisq refmag ->
  exists r i k v, sigma_g_lookup b allow0 z chisq refmag = Ok r /\
    in_bin (b_mag b) (b_magsize b) refmag i /\ nearest (b_z b) z k /\
    cell3 (b_sig b) i (List.length (b_chi b) - 1) k = Some v /\ reported allow0 v r.
Proof.
  intros b zsize allow0 z chisq refmag Hok He Ho.
  destruct (Verif.Proofs.Bkg.lookup_general b zsize allow0 z chisq refmag Hok) as (r & E & H1 & H2).
  destruct (H2 Ho) as (i & j & k & v & A & B & C & D & [[F _]|[_ ->]]); [contradiction|].
  exists r, i, k, v. auto.
Qed.
Print Assumptions C31_lowest_edge_refuted.

Definition tb : bkg := mkBkg [1#10; 2#10; 3#10]%Q [0; 1; 2]%Q [12; 13]%Q 1%Q 1%Q
  [[[1;2;3]; [4;5;6]; [7;8;9]]; [[11;12;13]; [14;0;16]; [17;18;19]]]%Q.
Example C31_witness_ok : bkg_ok tb (1#10).
Proof.
  split; try (cbn; congruence); try (cbn; lia); try (repeat constructor; reflexivity).
  - split; [reflexivity|]. intros [|[|[|i]]] a c; cbn; intros; try discriminate;
    repeat match goal with H : Some _ = Some _ |- _ => injection H as <- end; try reflexivity; try (destruct i; discriminate).
  - intros pl [<-|[<-|[]]]; reflexivity.
  - intros pl row [<-|[<-|[]]] [<-|[<-|[<-|[]]]]; reflexivity.
Qed.
Example C31_witness : 
  sigma_g_lookup tb false (19#100) (3#2) (25#2) = Ok (Val 5%Q) /\
  sigma_g_lookup tb false (19#100) (3#2) (27#2) = Ok Inf /\      (* empty bin *)
  sigma_g_lookup tb false (19#100) (7#2) (25#2) = Ok Inf /\      (* chisq above the table *)
  sigma_g_lookup tb false (19#100) 0 (25#2) = Ok (Val 8%Q).      (* lowest edge: the last bin *)
Proof. repeat split; vm_compute; reflexivity. Qed.

(** C32.  Below (or on) the lower edge: inf.  Above it: the density of the bin containing the point, where the
    last bin has no upper end.  (Missing: inf above the table, refuted next.) *)
Theorem C32_lookup_partial : forall b zred refmag z0 m0, zbkg_ok b ->
  nth_error (zb_z b) 0 = Some z0 -> nth_error (zb_mag b) 0 = Some m0 ->
  exists r, zred_lookup b zred refmag = Ok r /\
   ((zred <= z0 \/ refmag <= m0)%Q -> r = Inf) /\
   ((z0 < zred /\ m0 < refmag)%Q -> exists i j v, open_bin (zb_mag b) refmag i /\ open_bin (zb_z b) zred j /\
      cell2 (zb_sig b) i j = Some v /\ r = Val v).
Proof. exact Verif.Proofs.Bkg.zred_general. Qed.
Print Assumptions C32_lookup_partial.
(** Finding: values above the table are never flagged; however far away they get the last bin's density. *)
Theorem C32_above_refuted : forall b zred refmag z0 zn m0, zbkg_ok b ->
  nth_error (zb_z b) 0 = Some z0 -> nth_error (zb_z b) (List.length (zb_z b) - 1) = Some zn ->
  nth_error (zb_mag b) 0 = Some m0 -> (zn < zred)%Q -> (m0 < refmag)%Q ->
  exists i v, zred_lookup b zred refmag = Ok (Val v) /\ open_bin (zb_mag b) refmag i /\
    cell2 (zb_sig b) i (List.length (zb_z b) - 1) = Some v.
Proof. exact Verif.Proofs.Bkg.zred_above. Qed.
Print Assumptions C32_above_refuted.
Definition tz : zbkg := mkZB [1#10; 2#10]%Q [12; 13]%Q [[1;2];[3;4]]%Q.
Example C32_witness : zbkg_ok tz /\ zred_lookup tz (15#100) (25#2) = Ok (Val 1%Q) /\ zred_lookup tz 9 99 = Ok (Val 4%Q).
Proof.
  split; [|split; vm_compute; reflexivity].
  split; try (cbn; congruence); try (repeat constructor; reflexivity). intros r [<-|[<-|[]]]; reflexivity.
Qed.

(** C63.  Single-colour density: inf above the table, otherwise the bin containing the point; a point at or
    below the lower edge gets the FIRST bin (missing: inf there, refuted next). *)
Theorem C63_diagonal_partial : forall b col refmag c0 m0, cbkg1_ok b ->
  nth_error (c1_col b) 0 = Some c0 -> nth_error (c1_mag b) 0 = Some m0 ->
  exists r, sigma_g_diagonal b col refmag = Ok r /\
   (above (c1_col b) (c1_size b) col \/ above (c1_mag b) (c1_msize b) refmag -> r = Inf) /\
   (~ (above (c1_col b) (c1_size b) col \/ above (c1_mag b) (c1_msize b) refmag) ->
     exists i j v, ((m0 < refmag)%Q /\ in_bin (c1_mag b) (c1_msize b) refmag i \/ (refmag <= m0)%Q /\ i = 0) /\
                   ((c0 < col)%Q /\ in_bin (c1_col b) (c1_size b) col j \/ (col <= c0)%Q /\ j = 0) /\
        cell2 (c1_sig b) i j = Some v /\ reported false v r).
Proof. exact Verif.Proofs.Bkg.diag_general. Qed.
Print Assumptions C63_diagonal_partial.
Definition tc : cbkg1 := mkC1 [0; 1]%Q [12; 13]%Q 1%Q 1%Q [[1;2];[3;4]]%Q [[1;2];[3;4]]%Q [3;7]%Q.
Example C63_diagonal_witness : cbkg1_ok tc.
Proof.
  split; try (cbn; congruence); try (split; [reflexivity|]; intros [|[|i]] a c; cbn; intros; try discriminate;
    repeat match goal with H : Some _ = Some _ |- _ => injection H as <- end; try reflexivity; try (destruct i; discriminate)).
  intros r [<-|[<-|[]]]; reflexivity.
Qed.
(** Finding: a colour far below the table is not flagged. *)
Theorem C63_below_refuted : exists b col refmag v, cbkg1_ok b /\ below (c1_col b) col /\
  sigma_g_diagonal b col refmag = Ok (Val v).
Proof.
  exists tc, (-(50#1))%Q, (25#2)%Q, 1%Q. split; [exact C63_diagonal_witness|]. split; [exists 0%Q; split; reflexivity|].
  vm_compute. reflexivity.
Qed.
Print Assumptions C63_below_refuted.

(** Two-colour background, colours given in the order of the table: the bin of (colour 1, colour 2, refmag),
    clipped to the table, divided by the normalisation at that refmag. *)
Theorem C63_offdiag : forall exts i j b c1 c2 m dr, NoDup (map fst exts) ->
  (forall p, In p (map fst exts) -> (0 <= fst p < 100)%Z /\ (0 <= snd p < 100)%Z) ->
  In ((i, j), b) exts -> cbkg2_ok b ->
  exists mi j1 j2 v n, nearest_bin (c2_mag b) (c2_msize b) m mi /\ nearest_bin (c2_col1 b) (c2_size1 b) c1 j1 /\
    nearest_bin (c2_col2 b) (c2_size2 b) c2 j2 /\ cell3 (c2_bc b) mi j2 j1 = Some v /\ nth_error (c2_n b) mi = Some n /\
    lookup_offdiag (build_bkgs exts) i j c1 c2 m dr = Ok (v / n)%Q.
Proof.
  intros exts i j b c1 c2 m dr Hnd Hp Hin Hok.
  rewrite (Verif.Proofs.Bkg.offdiag_value exts i j b c1 c2 m dr Hnd Hp Hin).
  exact (Verif.Proofs.Bkg.off_value_spec b c1 c2 m Hok).
Qed.
Print Assumptions C63_offdiag.
(** Finding: asked with the two colours in the other order (colour j first), the function finds the same table
    but uses the colour-j value as colour i and vice versa. *)
Definition t2 : cbkg2 := mkC2 [0; 1]%Q [0; 1]%Q [12]%Q 1%Q 1%Q 1%Q [[[1;2];[3;4]]]%Q [1]%Q.
(** Finding: asked in the order opposite to the stored one, the table is read with the two colours exchanged. *)
Theorem C63_swapped_refuted : exists exts i j c1 c2 m v v',
  lookup_offdiag (build_bkgs exts) i j c1 c2 m true = Ok v /\
  lookup_offdiag (build_bkgs exts) j i c2 c1 m true = Ok v' /\ ~ (v == v')%Q.
Proof.
  exists [((1%Z, 2%Z), t2)], 1%Z, 2%Z, (1#2)%Q, (3#2)%Q, (25#2)%Q, (3/1)%Q, (2/1)%Q.
  repeat split; try (vm_compute; reflexivity). vm_compute. discriminate.
Qed.
Print Assumptions C63_swapped_refuted.
Example C63_offdiag_witness : cbkg2_ok t2.
Proof.
  split; try (cbn; congruence); try (split; [reflexivity|]; intros [|[|i]] a c; cbn; intros; try discriminate;
    repeat match goal with H : Some _ = Some _ |- _ => injection H as <- end; try reflexivity; try (destruct i; discriminate)).
  - intros r [<-|[]]; reflexivity.
  - intros p r [<-|[]] [<-|[<-|[]]]; reflexivity.
Qed.

(** A pair of colors found in neither order: an error, or nothing when the caller said so. *)
Theorem C63_missing : forall exts i j c1 c2 m dr,
  (forall p, In p (map fst exts) -> (0 <= fst p < 100)%Z /\ (0 <= snd p < 100)%Z) -> (0 <= i < 100)%Z -> (0 <= j < 100)%Z ->
  ~ In (i, j) (map fst exts) -> ~ In (j, i) (map fst exts) ->
  lookup_offdiag (build_bkgs exts) i j c1 c2 m dr = (if dr then Err KeyError else Ok 0%Q).
Proof.
  intros exts i j c1 c2 m dr Hp Hi Hj N1 N2.
  assert (X : forall l f a b, (forall p, In p (map fst l) -> (0 <= fst p < 100)%Z /\ (0 <= snd p < 100)%Z) -> (0 <= a < 100)%Z -> (0 <= b < 100)%Z ->
    ~ In (a, b) (map fst l) -> f (a * 100 + b)%Z = None ->
    fold_left (fun (f : Z -> option cbkg2) e k => if (k =? fst (fst e) * 100 + snd (fst e))%Z then Some (snd e) else f k) l f (a * 100 + b)%Z = None).
  { induction l as [|[[x y] v] l IH]; intros f a b H Ha Hb N F; [exact F|]. cbn [fold_left]. apply IH; [intros p I; apply H; right; exact I|exact Ha|exact Hb|intros I; apply N; right; exact I|].
    cbn [fst snd]. destruct (Z.eqb_spec (a * 100 + b) (x * 100 + y)) as [E|E]; [|exact F]. exfalso. destruct (H (x, y) (or_introl eq_refl)) as (H1 & H2). cbn [fst snd] in H1, H2.
    apply N. left. cbn [fst]. f_equal; lia. }
  unfold lookup_offdiag, build_bkgs. rewrite (X exts _ i j Hp Hi Hj N1 eq_refl), (X exts _ j i Hp Hj Hi N2 eq_refl). reflexivity.
Qed.
Print Assumptions C63_missing.
Example C63_missing_ex : lookup_offdiag (build_bkgs [((1%Z, 2%Z), t2)]) 1 3 0 0 0 true = Err KeyError /\ lookup_offdiag (build_bkgs [((1%Z, 2%Z), t2)]) 1 3 0 0 0 false = Ok 0%Q.
Proof. split; reflexivity. Qed.
