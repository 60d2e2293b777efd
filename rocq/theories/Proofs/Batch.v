(** Proofs about batch jobs. *)
From Coq Require Import Ascii String.
From Verif.Base Require Import Py PyLemmas.
From Verif.Model Require Import Galfile Names ParFile Batch.
From Verif.Spec Require Import Batch.
From Verif.Proofs Require Import Names ParFile RunAll Ingest.
From Coq Require Import Lia List. Import ListNotations.
Local Open Scope nat_scope.
Local Open Scope list_scope.

Definition clean (x : ascii) (s : str) : Prop := ~ In x s.
Lemma clean_app x a b : clean x (a ++ b) <-> clean x a /\ clean x b.
Proof. unfold clean. rewrite in_app_iff. tauto. Qed.
Lemma clean_b x s : forallb (fun c => negb (Ascii.eqb c x)) s = true -> clean x s.
Proof. intros H I. rewrite forallb_forall in H. specialize (H x I). rewrite Ascii.eqb_refl in H. discriminate. Qed.
Lemma plain_clean x s : In x special -> plain s -> clean x s.
Proof. intros I P J. exact (P x J I). Qed.

Lemma percent_app a f args : clean "%" a -> percent (a ++ f) args = do r <- percent f args; Ok (a ++ r).
Proof.
  induction a as [|c a IH]; intros H; cbn [app].
  - destruct (percent f args); reflexivity.
  - cbn [percent]. destruct (Ascii.eqb_spec c "%"%char) as [E|E]; [exfalso; apply H; left; exact E|]. rewrite IH by (intros I; apply H; right; exact I). destruct (percent f args); reflexivity.
Qed.
Lemma percent_one a x b : clean "%" a -> clean "%" b -> percent (a ++ s_ "%s" ++ b) [AS x] = Ok (a ++ x ++ b).
Proof.
  intros A B. rewrite percent_app by exact A. cbn [s_ list_ascii_of_string app percent Ascii.eqb Bool.eqb].
  rewrite <- (app_nil_r b) at 1. rewrite percent_app by exact B. cbn [percent bind]. rewrite app_nil_r. reflexivity.
Qed.
Lemma braces_app v a f : clean "{" a -> clean "}" a -> braces v None (a ++ f) = do r <- braces v None f; Ok (a ++ r).
Proof.
  intros H J. induction a as [|c a IH]; cbn [app].
  - destruct (braces v None f); reflexivity.
  - cbn [braces]. destruct (Ascii.eqb_spec c "{"%char) as [E|E]; [exfalso; apply H; left; exact E|]. destruct (Ascii.eqb_spec c "}"%char) as [E'|E']; [exfalso; apply J; left; exact E'|].
    rewrite IH; [destruct (braces v None f); reflexivity| |]; intros I; [apply H|apply J]; right; exact I.
Qed.
Lemma braces_one v a b : clean "{" a -> clean "}" a -> clean "{" b -> clean "}" b -> braces v None (a ++ s_ "{pixel}" ++ b) = Ok (a ++ v ++ b).
Proof.
  intros A1 A2 B1 B2. rewrite braces_app by assumption. change (braces v None (s_ "{pixel}" ++ b)) with (do r <- braces v None b; Ok (v ++ r)).
  rewrite <- (app_nil_r b) at 1. rewrite braces_app by assumption. cbn [braces bind]. rewrite app_nil_r. reflexivity.
Qed.
Lemma replace_app v a f : clean "$" a -> replace_all index_string v (a ++ f) = a ++ replace_all index_string v f.
Proof.
  unfold replace_all. induction a as [|c a IH]; intros H; [reflexivity|]. cbn [app replace_from].
  assert (E : prefix_of index_string (c :: a ++ f) = None). { unfold index_string, s_. cbn [list_ascii_of_string prefix_of]. destruct (Ascii.eqb_spec "$"%char c) as [E|E]; [exfalso; apply H; left; congruence|reflexivity]. }
  rewrite E. f_equal. apply IH. intros I. apply H. right. exact I.
Qed.
Lemma skip_from pat rep : forall n s, replace_from pat rep n s = replace_from pat rep 0 (skipn n s).
Proof. induction n as [|n IH]; intros [|c t]; try reflexivity. cbn [replace_from skipn]. apply IH. Qed.
Lemma replace_here c p rep b : replace_from (c :: p) rep 0 ((c :: p) ++ b) = rep ++ replace_from (c :: p) rep 0 b.
Proof.
  cbn [app replace_from]. change (c :: p ++ b) with ((c :: p) ++ b). rewrite prefix_app. f_equal. rewrite skip_from. cbn [length]. rewrite Nat.sub_succ, Nat.sub_0_r.
  rewrite skipn_app, skipn_all, Nat.sub_diag. reflexivity.
Qed.
Lemma replace_one v a b : clean "$" a -> clean "$" b -> replace_all index_string v (a ++ index_string ++ b) = a ++ v ++ b.
Proof.
  intros A B. rewrite replace_app by exact A. f_equal. unfold replace_all.
  assert (E : exists p, index_string = "$"%char :: p) by (eexists; reflexivity). pose proof (replace_app v b [] B) as X. rewrite app_nil_r in X. unfold replace_all in X.
  destruct E as [p E]. rewrite E in *. rewrite replace_here. f_equal. rewrite X. cbn [replace_from]. apply app_nil_r.
Qed.

Lemma words_app s : forall w acc, clean " " w -> acc ++ w <> [] -> words_from acc (w ++ " "%char :: s) = (acc ++ w) :: words_from [] s.
Proof.
  induction w as [|c w IH]; intros acc H N; cbn [app words_from].
  - rewrite app_nil_r in *. destruct acc; [congruence|]. reflexivity.
  - destruct (Ascii.eqb_spec c blank) as [E|E]; [exfalso; apply H; left; exact E|]. rewrite IH; rewrite <- ?app_assoc; [reflexivity|intros I; apply H; right; exact I|exact N].
Qed.
Lemma words_last : forall w acc, clean " " w -> acc ++ w <> [] -> words_from acc w = [acc ++ w].
Proof.
  induction w as [|c w IH]; intros acc H N; cbn [words_from].
  - rewrite app_nil_r in *. destruct acc; [congruence|]. reflexivity.
  - destruct (Ascii.eqb_spec c blank) as [E|E]; [exfalso; apply H; left; exact E|]. rewrite IH; rewrite <- ?app_assoc; [reflexivity|intros I; apply H; right; exact I|exact N].
Qed.
Lemma words_sentence ws : (forall w, In w ws -> clean " " w /\ w <> []) -> words (sentence ws) = ws.
Proof.
  unfold words. induction ws as [|w ws IH]; intros H; [reflexivity|]. destruct (H w (or_introl eq_refl)) as [H1 H2]. cbn [sentence]. destruct ws as [|v ws].
  - rewrite words_last; [reflexivity|exact H1|exact H2].
  - rewrite words_app; [|exact H1|exact H2]. cbn [app]. f_equal. apply IH. intros x I. apply H. right. exact I.
Qed.

Lemma digit_not s x : forallb is_digit s = true -> is_digit x = false -> clean x s.
Proof. intros H N I. rewrite forallb_forall in H. rewrite (H x I) in N. discriminate. Qed.
Lemma show_fmt z : (0 <= z)%Z -> show z = fmt 1 z.
Proof. intros H. unfold show. destruct (Z.ltb_spec z 0); [lia|reflexivity]. Qed.
Lemma show_clean z x : (0 <= z)%Z -> is_digit x = false -> clean x (show z).
Proof. intros H N. rewrite show_fmt by exact H. apply digit_not; [apply fmt_digits, H|exact N]. Qed.
Lemma show_len z : (0 <= z)%Z -> length (show z) <> 0.
Proof. intros H. rewrite show_fmt by exact H. unfold fmt. rewrite digits_len. lia. Qed.
Lemma int_show z : (0 <= z)%Z -> int_of (show z) = Ok z.
Proof.
  intros H. unfold int_of. pose proof (show_len z H) as L. destruct (Nat.eqb_spec (length (show z)) 0); [contradiction|]. cbn [negb andb].
  rewrite show_fmt by exact H. rewrite fmt_digits, fmt_val by exact H. reflexivity.
Qed.
Lemma show_dash z : (0 <= z)%Z -> starts_dash (show z) = false.
Proof.
  intros H. pose proof (show_clean z "-"%char H eq_refl) as C. unfold starts_dash. destruct (show z) as [|c s]; [reflexivity|].
  destruct (Ascii.eqb_spec c "-"%char) as [E|E]; [exfalso; apply C; left; exact E|reflexivity].
Qed.

Definition script (k : kind) : str :=
  match k with KRedmapper => s_ "redmapper_run_redmapper_pixel.py" | KZred => s_ "redmapper_run_zred_pixel.py" | KRuncat => s_ "redmapper_runcat_pixel.py"
  | KZmask => s_ "redmapper_run_zmask_pixel.py" | KZscan => s_ "redmapper_run_zscan_pixel.py" end.
Lemma kind_script k : kind_of (script k) = Ok k.
Proof. destruct k; reflexivity. Qed.
Lemma mode_script m k : In (m, k) modes -> script_of m = Ok (script k).
Proof. cbn. intros H. repeat (destruct H as [H|H]; [injection H as <- <-; reflexivity|]). destruct H. Qed.
Definition marks : str := ["%"; "$"; "{"; "}"; "'"; "\"; newline]%char.
Lemma script_clean k x : In x (" "%char :: marks) -> clean x (script k).
Proof. intros H. apply clean_b. destruct k; repeat (destruct H as [<-|H]; [reflexivity|]); destruct H. Qed.

Lemma command_eq m k cfg n : In (m, k) modes -> run_command m cfg n = Ok (script k ++ s_ " -c " ++ cfg ++ s_ " -p %s -n " ++ show n ++ s_ " -d " ++ dirname cfg).
Proof.
  intros H. unfold run_command. rewrite (mode_script m k H). cbn [bind]. rewrite percent_app by (apply script_clean; right; left; reflexivity).
  replace (percent (s_ " -c %s -p %%s -n %d -d %s") [AS cfg; AD n; AS (dirname cfg)]) with (Ok (s_ " -c " ++ cfg ++ s_ " -p %s -n " ++ show n ++ s_ " -d " ++ dirname cfg ++ [])) by reflexivity.
  cbn [bind]. rewrite app_nil_r. reflexivity.
Qed.
Lemma dirname_eq dir base : ~ In "/"%char base -> dirname (dir ++ "/"%char :: base) = dir.
Proof.
  intros H. unfold dirname. rewrite rev_app_distr. cbn [rev]. rewrite <- app_assoc. rewrite drop_app.
  - cbn [app drop_while]. rewrite Ascii.eqb_refl. cbn [negb tl]. apply rev_involutive.
  - apply forallb_forall. intros c I. apply in_rev in I. destruct (Ascii.eqb_spec c "/"%char); [subst; contradiction|reflexivity].
Qed.
Definition front (k : kind) (cfg : str) : str := script k ++ s_ " -c " ++ cfg ++ s_ " -p ".
Definition back (n : Z) (dir : str) : str := s_ " -n " ++ show n ++ s_ " -d " ++ dir.
Lemma front_clean k cfg x : In x marks -> clean x cfg -> clean x (front k cfg).
Proof.
  intros H C. unfold front. rewrite !clean_app. split; [apply script_clean; right; exact H|]. split; [apply clean_b|split; [exact C|apply clean_b]]; repeat (destruct H as [<-|H]; [reflexivity|]); destruct H.
Qed.
Lemma back_clean n dir x : (0 <= n)%Z -> In x marks -> clean x dir -> clean x (back n dir).
Proof.
  intros N H C. unfold back. rewrite !clean_app. split; [apply clean_b|split; [apply show_clean; [exact N|]|split; [apply clean_b|exact C]]]; repeat (destruct H as [<-|H]; [reflexivity|]); destruct H.
Qed.
Definition line (k : kind) (cfg : str) (p n : Z) (dir : str) : str := front k cfg ++ show p ++ back n dir.
Lemma line_sentence k cfg p n dir : line k cfg p n dir = sentence [script k; s_ "-c"; cfg; s_ "-p"; show p; s_ "-n"; show n; s_ "-d"; dir].
Proof. unfold line, front, back. cbn [sentence]. rewrite <- !app_assoc. reflexivity. Qed.
Lemma run_words k cfg p n dir ws : (0 <= p)%Z -> (0 <= n)%Z -> clean " " cfg -> cfg <> [] -> starts_dash cfg = false -> clean " " dir -> dir <> [] -> starts_dash dir = false ->
  (ws = [script k; s_ "-c"; cfg; s_ "-p"; show p; s_ "-n"; show n; s_ "-d"; dir] \/ ws = [script k; s_ "-c"; cfg; s_ "-n"; show n; s_ "-d"; dir; s_ "-p"; show p]) ->
  run_line (sentence ws) = Ok (mkTask k cfg p n dir).
Proof.
  intros P N C1 C2 C3 D1 D2 D3 W. unfold run_line. rewrite words_sentence.
  - pose proof (show_dash p P) as SP. pose proof (show_dash n N) as SN. pose proof (int_show p P) as IP. pose proof (int_show n N) as IN.
    destruct W as [-> | ->]; cbn [bind]; rewrite kind_script; cbn [bind scan]; rewrite ?C3, ?SP, ?SN, ?D3; cbn [is_opt str_eqb s_ list_ascii_of_string Ascii.eqb Bool.eqb andb orb]; rewrite ?IP, ?IN; cbn [bind o_c o_p o_n o_d]; rewrite ?IP, ?IN; cbn [bind o_c o_p o_n o_d]; reflexivity.
  - assert (B : forall z, (0 <= z)%Z -> clean " " (show z) /\ show z <> []) by (intros z Z0; split; [apply show_clean; [exact Z0|reflexivity]|intros E; apply (show_len z Z0); rewrite E; reflexivity]).
    assert (K : clean " " (script k) /\ script k <> []) by (split; [apply script_clean; left; reflexivity|destruct k; discriminate]).
    assert (F : forall w, In w [s_ "-c"; s_ "-p"; s_ "-n"; s_ "-d"] -> clean " " w /\ w <> []) by (intros w I; repeat (destruct I as [<-|I]; [split; [apply clean_b; reflexivity|discriminate]|]); destruct I).
    intros w I. destruct W as [-> | ->]; repeat (destruct I as [<-|I]; [first [exact K|split; assumption|apply B; assumption|apply F; left; reflexivity|apply F; right; left; reflexivity|apply F; do 2 right; left; reflexivity|apply F; do 3 right; left; reflexivity]|]); destruct I.
Qed.
Lemma literal_ok s : clean "'" s -> clean "\" s -> clean newline s -> literal s = Ok s.
Proof.
  intros A B C. unfold literal. destruct (existsb _ s) eqn:E; [|reflexivity]. exfalso. apply existsb_exists in E. destruct E as (c & I & J). apply char_in_iff in J. cbn in J.
  destruct J as [J|[J|[J|[]]]]; subst c; [exact (A I)|exact (B I)|exact (C I)].
Qed.
Lemma braces_tail v q : q <> "{"%char -> q <> "}"%char -> forall len s n l, length s <= len -> braces v n s = Ok l -> braces v n (s ++ [q]) = Ok (l ++ [q]).
Proof.
  intros Q1 Q2. induction len as [|len IH]; intros s n l L H.
  - destruct s; [|cbn in L; lia]. cbn [braces] in H. destruct n; [discriminate|]. injection H as <-. cbn [app braces].
    destruct (Ascii.eqb_spec q "{"%char); [contradiction|]. destruct (Ascii.eqb_spec q "}"%char); [contradiction|]. reflexivity.
  - destruct s as [|c t]; [apply (IH [] n l); [cbn; lia|exact H]|]. cbn [app braces] in *. cbn [length] in L. destruct n as [n|].
    + destruct (Ascii.eqb c "}"%char); [|apply IH; [lia|exact H]]. destruct (str_eqb n (s_ "pixel")); [|discriminate].
      destruct (braces v None t) as [r|] eqn:E; [|discriminate]. cbn [bind] in H. injection H as <-. rewrite (IH t None r) by (try lia; exact E). cbn [bind]. rewrite app_assoc. reflexivity.
    + destruct (Ascii.eqb c "{"%char).
      { destruct t as [|d t]; [discriminate|]. cbn [app] in *. cbn [length] in L. destruct (Ascii.eqb d "{"%char).
        - destruct (braces v None t) as [r|] eqn:E; [|discriminate]. cbn [bind] in H. injection H as <-. rewrite (IH t None r) by (try lia; exact E). reflexivity.
        - change (d :: t ++ [q]) with ((d :: t) ++ [q]). apply IH; [cbn; lia|exact H]. }
      destruct (Ascii.eqb c "}"%char).
      { destruct t as [|d t]; [discriminate|]. cbn [app] in *. cbn [length] in L. destruct (Ascii.eqb d "}"%char); [|discriminate].
        destruct (braces v None t) as [r|] eqn:E; [|discriminate]. cbn [bind] in H. injection H as <-. rewrite (IH t None r) by (try lia; exact E). reflexivity. }
      destruct (braces v None t) as [r|] eqn:E; [|discriminate]. cbn [bind] in H. injection H as <-. rewrite (IH t None r) by (try lia; exact E). reflexivity.
Qed.
Lemma get_app {V} k (s : list (str * V)) k' v : get k (s ++ [(k', v)]) = match get k s with Some x => Some x | None => if str_eqb k k' then Some v else None end.
Proof. induction s as [|[a b] s IH]; [reflexivity|]. cbn [app get]. destruct (str_eqb k a); [reflexivity|exact IH]. Qed.
Lemma default_get k a b s : get k (default a b s) = match get k s with Some x => Some x | None => if str_eqb k (s_ a) then Some (s_ b) else None end.
Proof.
  unfold default. destruct (get (s_ a) s) eqn:E; [|apply get_app]. destruct (str_eqb k (s_ a)) eqn:F; [apply str_eqb_iff in F; subst; rewrite E; reflexivity|]. destruct (get k s); reflexivity.
Qed.
Lemma loaded (secs : list (str * section)) r : load_batchconfig (Some secs) = Ok r -> forall name, get name r = match get name secs with None => None | Some s => match complete s with Ok s' => Some s' | Err _ => None end end.
Proof.
  unfold load_batchconfig. revert r. induction secs as [|[k s] secs IH]; intros r H name; cbn [mapM] in H; [injection H as <-; reflexivity|]. cbn [fst snd] in H.
  destruct (complete s) as [s'|] eqn:E; [|discriminate]. cbn [bind] in H. destruct (mapM _ secs) as [r'|] eqn:F; [|discriminate]. cbn [bind] in H. injection H as <-.
  cbn [get]. destruct (str_eqb name k); [rewrite E; reflexivity|]. apply IH. reflexivity.
Qed.
Lemma load_ok (secs : list (str * section)) : (exists r, load_batchconfig (Some secs) = Ok r) <-> forall k s, In (k, s) secs -> get (s_ "batch") s <> None.
Proof.
  unfold load_batchconfig. induction secs as [|[k s] secs IH]; cbn [mapM]; [split; [intros _ ? ? []|eauto]|]. cbn [fst snd]. unfold complete at 1.
  destruct (get (s_ "batch") s) eqn:E.
  - cbn [bind]. destruct (mapM _ secs) as [r|].
    + split; [|intros _; eexists; reflexivity]. intros _ k' s' [X|X]; [injection X as <- <-; congruence|]. apply (proj1 IH (ex_intro _ r eq_refl) k' s' X).
    + split; [intros [r H]; discriminate|]. intros H. exfalso. destruct (proj2 IH) as [r X]; [|discriminate]. intros k' s' I. apply (H k' s'). right. exact I.
  - split; [intros [r H]; discriminate|]. intros H. exfalso. exact (H k s (or_introl eq_refl) E).
Qed.
Lemma load_err secs x : load_batchconfig (Some secs) = Err x -> x = ValueError.
Proof.
  unfold load_batchconfig. induction secs as [|[k s] secs IH]; cbn [mapM]; [discriminate|]. cbn [fst snd]. unfold complete at 1. destruct (get (s_ "batch") s); cbn [bind]; [|congruence].
  destruct (mapM _ secs); [discriminate|exact IH].
Qed.
Lemma load_names secs r : load_batchconfig (Some secs) = Ok r -> map fst r = map fst secs.
Proof.
  unfold load_batchconfig. revert r. induction secs as [|[k s] secs IH]; intros r H; cbn [mapM] in H; [injection H as <-; reflexivity|]. cbn [fst snd] in H.
  destruct (complete s) as [s'|] eqn:E; [|discriminate]. cbn [bind] in H. destruct (mapM _ secs) as [r'|] eqn:F; [|discriminate]. cbn [bind] in H. injection H as <-. cbn [map fst]. f_equal. apply IH. reflexivity.
Qed.
Lemma sentence_app ws vs : ws <> [] -> vs <> [] -> sentence (ws ++ vs) = sentence ws ++ " "%char :: sentence vs.
Proof.
  intros N V. induction ws as [|w ws IH]; [contradiction|]. cbn [app sentence]. destruct ws as [|x ws]; [destruct vs; [contradiction|reflexivity]|].
  change ((x :: ws) ++ vs) with (x :: ws ++ vs). rewrite <- app_comm_cons in IH. rewrite IH by discriminate. rewrite <- app_assoc. reflexivity.
Qed.
