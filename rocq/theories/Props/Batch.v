(** C169, C170, C171: the jobs of a batch run, its settings, and several pixels on one node. *)
From Coq Require Import Ascii String.
From Verif.Base Require Import Py PyLemmas.
From Verif.Model Require Import Galfile Names ParFile Batch.
From Verif.Spec Require Import Batch.
From Verif.Proofs Require Import Names ParFile RunAll Ingest Batch.
From Coq Require Import Lia List. Import ListNotations.
Local Open Scope nat_scope.
Local Open Scope list_scope.

(** There is one job for each pixel, and it runs the task of the run mode on that pixel, with the configuration file, resolution and the
    directory of the configuration file.  (Missing: names with characters which have a meaning to the shell or in one of the rounds of
    formatting; PBS.) *)
Theorem C169_jobs_partial b m k dir base nside pixels : submits b -> In (m, k) modes -> plain_file dir base -> (0 <= nside)%Z -> (forall p, In p pixels -> (0 <= p)%Z) ->
  exists lines, job_lines b m (dir ++ s_ "/" ++ base) nside [] pixels = Ok lines /\
    mapM run_line lines = Ok (map (fun p => mkTask k (dir ++ s_ "/" ++ base) p nside dir) pixels).
Proof.
  intros B M (P1 & P2 & (d & D) & N) Hn Hp. set (cfg := dir ++ s_ "/" ++ base).
  assert (C : forall x, In x (" "%char :: marks) -> clean x cfg /\ clean x dir).
  { intros x I. assert (J : In x special) by (repeat (destruct I as [<-|I]; [apply char_in_iff; reflexivity|]); destruct I).
    assert (x <> "/"%char) by (intros ->; repeat (destruct I as [I|I]; [discriminate|]); destruct I).
    split; [unfold cfg; rewrite !clean_app; split; [|split]|]; try (apply plain_clean; assumption). intros [E|[]]. congruence. }
  exists (map (fun p => line k cfg p nside dir) pixels). split.
  - assert (E : run_command m cfg nside = Ok (front k cfg ++ s_ "%s" ++ back nside dir)).
    { rewrite (command_eq m k cfg nside M). unfold cfg at 2. change (s_ "/" ++ base) with ("/"%char :: base). rewrite dirname_eq by exact N. unfold front, back. rewrite <- !app_assoc. reflexivity. }
    assert (F : forall x, In x marks -> clean x (front k cfg) /\ clean x (back nside dir)).
    { intros x I. destruct (C x (or_intror I)). split; [apply front_clean|apply back_clean]; assumption. }
    assert (G : forall n, nth_error marks n <> None -> clean (nth n marks newline) (front k cfg) /\ clean (nth n marks newline) (back nside dir)).
    { intros n I. apply F. apply nth_In. apply nth_error_Some. exact I. }
    assert (L : lsf_line m cfg nside = Ok (front k cfg ++ index_string ++ back nside dir)).
    { unfold lsf_line. rewrite E. cbn [bind]. apply percent_one; apply (G 0); discriminate. }
    assert (T : parsl_text m cfg nside [] = Ok (front k cfg ++ s_ "{pixel}" ++ back nside dir)).
    { unfold parsl_text. rewrite E. cbn [bind]. rewrite percent_one by (apply (G 0); discriminate). reflexivity. }
    assert (X : literal (front k cfg ++ s_ "{pixel}" ++ back nside dir) = Ok (front k cfg ++ s_ "{pixel}" ++ back nside dir)).
    { apply literal_ok; rewrite !clean_app; (split; [|split]); try (apply clean_b; reflexivity);
        first [apply (G 4); discriminate|apply (G 5); discriminate|apply (G 6); discriminate]. }
    assert (Y : forall ps, mapM (fun p => braces (show p) None (front k cfg ++ s_ "{pixel}" ++ back nside dir)) ps = Ok (map (fun p => line k cfg p nside dir) ps)).
    { induction ps as [|p ps IH]; [reflexivity|]. cbn [mapM map]. rewrite IH, braces_one; [reflexivity| | | |]; first [apply (G 2); discriminate|apply (G 3); discriminate]. }
    unfold job_lines. destruct B as [->|[->| ->]].
    + rewrite lsf_pixels. cbn [bind]. rewrite L. cbn [bind]. f_equal. apply map_ext. intros p. apply replace_one; apply (G 1); discriminate.
    + cbn [job_pixels bind]. rewrite T. cbn [bind]. rewrite X. cbn [bind]. apply Y.
    + cbn [job_pixels bind]. rewrite T. cbn [bind]. rewrite X. cbn [bind]. apply Y.
  - destruct (C " "%char (or_introl eq_refl)) as [C1 C2].
    assert (S1 : starts_dash cfg = false /\ cfg <> []) by (unfold cfg; rewrite D; split; [reflexivity|discriminate]). assert (S2 : starts_dash dir = false /\ dir <> []) by (rewrite D; split; [reflexivity|discriminate]).
    clear -Hp Hn C1 C2 S1 S2. induction pixels as [|p ps IH]; [reflexivity|]. cbn [map mapM]. rewrite IH by (intros q I; apply Hp; right; exact I).
    rewrite line_sentence. rewrite (run_words k cfg p nside dir) by (try assumption; try (apply Hp; left; reflexivity); try tauto). reflexivity.
Qed.
Print Assumptions C169_jobs_partial.
Example C169_ex : plain_file (s_ "/data/run_y3") (s_ "run.yml") /\ job_lines ParslLocal 1 (s_ "/data/run_y3/run.yml") 8 [] [3; 12]%Z =
  Ok [s_ "redmapper_run_zred_pixel.py -c /data/run_y3/run.yml -p 3 -n 8 -d /data/run_y3"; s_ "redmapper_run_zred_pixel.py -c /data/run_y3/run.yml -p 12 -n 8 -d /data/run_y3"].
Proof.
  split; [|vm_compute; reflexivity]. assert (H : forall s, forallb (fun c => negb (char_in special c)) s = true -> plain s).
  { intros s F c I J. rewrite forallb_forall in F. specialize (F c I). apply char_in_iff in J. rewrite J in F. discriminate. }
  split; [apply H; reflexivity|]. split; [apply H; reflexivity|]. split; [eexists; reflexivity|]. intros I. apply char_in_iff in I. discriminate.
Qed.
(** With an image the same commands are run by a shell inside it. *)
Theorem C169_image b m k dir base nside image pixels lines : (b = ParslLocal \/ b = ParslSlurm) -> In (m, k) modes -> plain_file dir base -> plain image -> image <> [] -> (0 <= nside)%Z ->
  job_lines b m (dir ++ s_ "/" ++ base) nside [] pixels = Ok lines ->
  job_lines b m (dir ++ s_ "/" ++ base) nside image pixels = Ok (map (fun l => s_ "shifter --image=" ++ image ++ s_ " /bin/bash -c "". /opt/redmapper/startup.sh && " ++ l ++ s_ """") lines).
Proof.
  intros B M (P1 & P2 & (d & D) & N) PI NI Hn E.
  assert (B' : forall im, job_lines b m (dir ++ s_ "/" ++ base) nside im pixels = do t <- parsl_text m (dir ++ s_ "/" ++ base) nside im; do c <- literal t; mapM (fun p => braces (show p) None c) pixels) by (intros im; destruct B as [-> | ->]; reflexivity).
  rewrite B' in *. unfold parsl_text in *. destruct (run_command m _ nside) as [c|]; [|discriminate]. cbn [bind] in *. destruct (percent c _) as [cmd|]; [|discriminate]. cbn [bind] in *.
  destruct image as [|i0 image0] eqn:EI; [congruence|]. rewrite <- EI in *. clear EI.
  assert (C : forall x, In x marks -> clean x image). { intros x I. apply plain_clean; [|exact PI]. repeat (destruct I as [<-|I]; [apply char_in_iff; reflexivity|]); destruct I. }
  set (pre := s_ "shifter --image=" ++ image ++ s_ " /bin/bash -c "". /opt/redmapper/startup.sh && ").
  assert (Cp : forall x, In x marks -> clean x pre). { intros x I. unfold pre. rewrite !clean_app. split; [|split; [apply C, I|]]; apply clean_b; repeat (destruct I as [<-|I]; [reflexivity|]); destruct I. }
  replace (s_ "shifter --image=" ++ image ++ s_ " /bin/bash -c "". /opt/redmapper/startup.sh && " ++ cmd ++ s_ """") with (pre ++ cmd ++ s_ """") by (unfold pre; rewrite <- !app_assoc; reflexivity).
  assert (L : literal cmd = Ok cmd) by (unfold literal in *; destruct (existsb _ cmd); [discriminate|reflexivity]). rewrite L in E. cbn [bind] in E.
  assert (CL : forall x, In x ["'"%char; "\"%char; newline] -> clean x cmd).
  { intros x I J. unfold literal in L. destruct (existsb _ cmd) eqn:X; [discriminate|]. assert (Y : existsb (fun c => char_in ["'"%char; "\"%char; newline] c) cmd = true) by (apply existsb_exists; exists x; split; [exact J|apply char_in_iff; exact I]). congruence. }
  rewrite literal_ok; [|rewrite !clean_app..].
  2,3,4: split; [apply Cp; cbn; tauto|split; [apply CL; cbn; tauto|apply clean_b; reflexivity]].
  cbn [bind]. clear -E Cp. revert lines E. induction pixels as [|p ps IH]; intros lines E; cbn [mapM] in *; [injection E as <-; reflexivity|].
  destruct (braces (show p) None cmd) as [l|] eqn:F; [|discriminate]. cbn [bind] in E. destruct (mapM _ ps) as [ls|] eqn:G; [|discriminate]. cbn [bind] in E. injection E as <-.
  rewrite braces_app by (apply Cp; cbn; tauto).
  assert (T : braces (show p) None (cmd ++ s_ """") = Ok (l ++ s_ """")) by (apply (braces_tail (show p) """"%char ltac:(discriminate) ltac:(discriminate) (length cmd)); [lia|exact F]).
  rewrite T. cbn [bind map]. rewrite (IH ls eq_refl). cbn [bind]. unfold pre. rewrite <- !app_assoc. reflexivity.
Qed.
Print Assumptions C169_image.
(** Finding: a '%' in the name of the configuration file or its directories is taken for a format in the second round of formatting
    (bin/redmapper_batch.py:258, 294): with '%/' no job can be created, after the job file has been opened. *)
Theorem C169_percent_refuted b m k a r nside image pixels : submits b -> In (m, k) modes -> ~ In "%"%char a -> job_lines b m (a ++ s_ "%/" ++ r) nside image pixels = Err ValueError.
Proof.
  intros B M N. set (cfg := a ++ s_ "%/" ++ r).
  assert (E : forall x, (do c <- run_command m cfg nside; percent c [AS x]) = Err ValueError).
  { intros x. rewrite (command_eq m k cfg nside M). cbn [bind]. unfold cfg at 1. rewrite percent_app by (apply script_clean; right; left; reflexivity). rewrite percent_app by (apply clean_b; reflexivity).
    rewrite <- !app_assoc. rewrite percent_app by exact N. reflexivity. }
  unfold job_lines. destruct B as [->|[->| ->]]; [rewrite lsf_pixels; cbn [bind]; unfold lsf_line; rewrite E; reflexivity| |]; cbn [job_pixels bind]; unfold parsl_text;
    specialize (E (s_ "{pixel}")); destruct (run_command m cfg nside) as [c|x]; cbn [bind] in *; [rewrite E; reflexivity|congruence|rewrite E; reflexivity|congruence].
Qed.
Print Assumptions C169_percent_refuted.
(** Finding: the jobs of a configuration file with '%%' in its name run another one. *)
Theorem C169_other_file_refuted : exists lines, job_lines LSF 0 (s_ "/data/50%%/run.yml") 8 [] [3%Z] = Ok lines /\
  mapM run_line lines = Ok [mkTask KRedmapper (s_ "/data/50%/run.yml") 3 8 (s_ "/data/50%")].
Proof. eexists. split; vm_compute; reflexivity. Qed.
Print Assumptions C169_other_file_refuted.
(** Finding: with parsl, braces in the name are taken for an argument of the third round of formatting (parsl_templates.py:78), and the
    script fails; with LSF the same name works. *)
Theorem C169_braces_refuted : let cfg := s_ "/data/{new}/run.yml" in job_lines ParslSlurm 0 cfg 8 [] [3%Z] = Err KeyError /\
  (exists lines, job_lines LSF 0 cfg 8 [] [3%Z] = Ok lines /\ mapM run_line lines = Ok [mkTask KRedmapper cfg 3 8 (s_ "/data/{new}")]).
Proof. split; [vm_compute; reflexivity|]. eexists. split; vm_compute; reflexivity. Qed.
Print Assumptions C169_braces_refuted.
(** Finding: names are not quoted for the shell: with a blank in a directory every job stops at its options. *)
Theorem C169_blank_refuted : exists l, job_lines LSF 0 (s_ "/my data/run.yml") 8 [] [3%Z] = Ok [l] /\ run_line l = Err RuntimeError.
Proof. eexists. split; vm_compute; reflexivity. Qed.
Print Assumptions C169_blank_refuted.

(** The settings of a run are those of the named section, or of the only one, with defaults for what it does not give. *)
Theorem C170_settings (secs : list (str * section)) mode name (sec : section) : (forall k s, In (k, s) secs -> get (s_ "batch") s <> None) ->
  (mode = Some name \/ (mode = None /\ secs = [(name, sec)])) -> get name secs = Some sec ->
  exists s, batch_settings (Some (Some secs)) mode = Ok s /\ forall k, get k s = match get k sec with
    | Some v => Some v
    | None => get k [(s_ "setup", s_ ""); (s_ "requirements", s_ ""); (s_ "parsl_provider", s_ "local"); (s_ "image", s_ ""); (s_ "constraint", s_ ""); (s_ "qos", s_ "")]
    end.
Proof.
  intros H M G. destruct (proj2 (load_ok secs) H) as [r R]. unfold batch_settings.
  cbv iota. 
  rewrite R. cbn [bind].
  assert (C : exists s, complete sec = Ok s /\ get name r = Some s).
  { rewrite (loaded secs r R name), G. destruct (complete sec) as [s|] eqn:E; [eauto|]. exfalso. assert (X : exists k, In (k, sec) secs) by (clear -G; induction secs as [|[a b] secs IH]; [discriminate|]; cbn [get] in G; destruct (str_eqb name a); [injection G as <-; exists a; left; reflexivity|destruct (IH G) as [k K]; exists k; right; exact K]).
    destruct X as [k X]. specialize (H k sec X). unfold complete in E. destruct (get (s_ "batch") sec); [discriminate|congruence]. }
  destruct C as (s & C & Gr). exists s. split.
  - destruct M as [-> |[-> ->]]; cbn [bind]; [rewrite Gr; reflexivity|]. pose proof (load_names _ r R) as L. destruct r as [|[k0 s0] [|? ?]]; try discriminate. cbn in L. injection L as ->. cbn [List.length Nat.ltb Nat.leb bind]. rewrite Gr. reflexivity.
  - intros k. unfold complete in C. destruct (get (s_ "batch") sec); [|discriminate]. injection C as <-. rewrite !default_get. cbn [get].
    destruct (get k sec); [reflexivity|]. destruct (str_eqb k (s_ "setup")); [reflexivity|]. destruct (str_eqb k (s_ "requirements")); [reflexivity|]. destruct (str_eqb k (s_ "parsl_provider")); [reflexivity|].
    destruct (str_eqb k (s_ "image")); [reflexivity|]. destruct (str_eqb k (s_ "constraint")); reflexivity.
Qed.
Print Assumptions C170_settings.
Example C170_ex : exists s, batch_settings (Some (Some [(s_ "site", [(s_ "batch", s_ "parsl"); (s_ "image", s_ "rm:1")])])) None = Ok s /\ get (s_ "image") s = Some (s_ "rm:1") /\ get (s_ "parsl_provider") s = Some (s_ "local").
Proof. eexists. repeat split; vm_compute; reflexivity. Qed.
(** With several sections one has to be named, and it must be one of the file. *)
Theorem C170_choice (secs : list (str * section)) : (forall k s, In (k, s) secs -> get (s_ "batch") s <> None) ->
  (2 <= length secs -> batch_settings (Some (Some secs)) None = Err RuntimeError) /\
  (forall name, get name secs = None -> batch_settings (Some (Some secs)) (Some name) = Err KeyError) /\
  (secs = [] -> batch_settings (Some (Some secs)) None = Err IndexError).
Proof.
  intros H. destruct (proj2 (load_ok secs) H) as [r R]. unfold batch_settings. cbv iota. rewrite R. cbn [bind]. pose proof (load_names _ r R) as L. apply (f_equal (@List.length str)) in L. rewrite !map_length in L. split; [|split].
  - intros G. destruct (Nat.ltb_spec 1 (List.length r)); [reflexivity|lia].
  - intros name G. rewrite (loaded secs r R name), G. reflexivity.
  - intros ->. destruct r; [reflexivity|discriminate].
Qed.
Print Assumptions C170_choice.
(** Finding: a section without 'batch' stops the runs of every other section; an empty file stops with AttributeError. *)
Theorem C170_other_section_refuted (secs : list (str * section)) mode k (s : section) : In (k, s) secs -> get (s_ "batch") s = None -> batch_settings (Some (Some secs)) mode = Err ValueError /\ batch_settings (Some None) mode = Err AttributeError.
Proof.
  intros I G. split; [|reflexivity]. unfold batch_settings. cbv iota. destruct (load_batchconfig (Some secs)) as [r|x] eqn:E; [|rewrite (load_err secs x E); reflexivity].
  exfalso. exact (proj1 (load_ok secs) (ex_intro _ r E) k s I G).
Qed.
Print Assumptions C170_other_section_refuted.
(** Finding: on first use the script asks for its new settings to be edited and to be run again, but goes on with them: an LSF job. *)
Theorem C170_first_use_refuted : exists s, batch_settings None None = Ok s /\ get (s_ "batch") s = Some (s_ "lsf").
Proof. eexists. split; vm_compute; reflexivity. Qed.
Print Assumptions C170_first_use_refuted.
(** The time given counts, else a default by run mode. *)
Theorem C170_walltime m k w : In (m, k) modes -> wall_minutes m (Some w) = Ok w /\
  wall_minutes m None = Ok (match k with KRedmapper => 4320 | KZred => 300 | _ => 600 end)%Z.
Proof. intros H. repeat (destruct H as [H|H]; [injection H as <- <-; split; reflexivity|]). destruct H. Qed.
Print Assumptions C170_walltime.
(** The nodes of a PBS job hold all pixels, and one node fewer does not. *)
Theorem C170_nodes n ppn : (0 < ppn)%Z -> (n <= pbs_nodes n ppn * ppn)%Z /\ ((pbs_nodes n ppn - 1) * ppn < n)%Z.
Proof. intros P. unfold pbs_nodes. pose proof (Z.div_mod (- n) ppn ltac:(lia)). pose proof (Z.mod_pos_bound (- n) ppn P). nia. Qed.
Print Assumptions C170_nodes.
(** Finding: a PBS job asks for whole hours, rounded down: less than the time given unless it is a multiple of 60 minutes, and none at
    all below an hour (bin/redmapper_batch.py:239). *)
Theorem C170_hours_refuted w : (0 <= w)%Z -> (60 * pbs_hours w <= w)%Z /\ ((60 * pbs_hours w < w)%Z <-> ~ (60 | w)%Z) /\ ((w < 60)%Z -> pbs_hours w = 0%Z).
Proof.
  intros H. unfold pbs_hours. rewrite Z.quot_div_nonneg by lia. pose proof (Z.div_mod w 60 ltac:(lia)). pose proof (Z.mod_pos_bound w 60 ltac:(lia)). split; [lia|]. split.
  - split; [intros L D; apply Z.mod_divide in D; lia|]. intros D. destruct (Z.eq_dec (w mod 60) 0) as [E|E]; [exfalso; apply D; apply Z.mod_divide; [lia|exact E]|lia].
  - intros L. apply Z.div_small. lia.
Qed.
Print Assumptions C170_hours_refuted.

(** Several pixels on one node: the command is run once for each pixel listed, with the options given and that pixel. *)
Theorem C171_each status k cfg n dir pixels : plain cfg -> plain dir -> cfg <> [] -> dir <> [] -> starts_dash cfg = false -> starts_dash dir = false -> (0 <= n)%Z -> pixels <> [] -> (forall p, In p pixels -> (0 <= p)%Z) ->
  mapM run_line (fst (run_many status (sentence [match k with KRedmapper => s_ "redmapper_run_redmapper_pixel.py" | KZred => s_ "redmapper_run_zred_pixel.py" | KRuncat => s_ "redmapper_runcat_pixel.py"
    | KZmask => s_ "redmapper_run_zmask_pixel.py" | KZscan => s_ "redmapper_run_zscan_pixel.py" end; s_ "-c"; cfg; s_ "-n"; show n; s_ "-d"; dir]) (join (map show pixels)))) =
  Ok (map (fun p => mkTask k cfg p n dir) pixels).
Proof.
  intros P1 P2 N1 N2 S1 S2 Hn NE Hp. change (match k with KRedmapper => _ | KZred => _ | KRuncat => _ | KZmask => _ | KZscan => _ end) with (script k). unfold run_many. cbn [fst].
  rewrite split_join; [|destruct pixels; [contradiction|discriminate]|].
  - assert (C : clean " " cfg /\ clean " " dir) by (split; (apply plain_clean; [apply char_in_iff; reflexivity|assumption])). destruct C as [C1 C2].
    clear NE. induction pixels as [|p ps IH]; [reflexivity|]. cbn [map mapM]. rewrite IH by (intros q I; apply Hp; right; exact I).
    replace (sentence [script k; s_ "-c"; cfg; s_ "-n"; show n; s_ "-d"; dir] ++ s_ " -p " ++ show p) with (sentence [script k; s_ "-c"; cfg; s_ "-n"; show n; s_ "-d"; dir; s_ "-p"; show p]).
    2: { change (s_ " -p " ++ show p) with (" "%char :: sentence [s_ "-p"; show p]). rewrite <- (sentence_app [script k; s_ "-c"; cfg; s_ "-n"; show n; s_ "-d"; dir] [s_ "-p"; show p]) by discriminate. reflexivity. }
    rewrite (run_words k cfg p n dir) by (try assumption; try (apply Hp; left; reflexivity); tauto). reflexivity.
  - intros a I. apply in_map_iff in I. destruct I as (p & <- & I). pose proof (show_clean p comma (Hp p I) eq_refl) as X. exact X.
Qed.
Print Assumptions C171_each.
(** Finding: the exit status of the commands is dropped (bin/redmapper_run_many_pixels_same_node.py:26): the script ends without an error
    whatever became of the pixels. *)
Theorem C171_status_refuted status command pixels : snd (run_many status command pixels) = Ok tt.
Proof. unfold run_many. cbn [snd]. generalize (map (fun p => command ++ s_ " -p " ++ p) (splitc pixels)). intros l. induction l as [|c l IH]; [reflexivity|exact IH]. Qed.
Print Assumptions C171_status_refuted.
(** Finding: a pixel listed twice is run twice at the same time, and an empty list starts one command without a pixel, which stops. *)
Theorem C171_list_refuted status command : (forall p, ~ In comma p -> fst (run_many status command (p ++ comma :: p)) = [command ++ s_ " -p " ++ p; command ++ s_ " -p " ++ p]) /\
  fst (run_many status command []) = [command ++ s_ " -p "].
Proof.
  split; [|reflexivity]. intros p H. unfold run_many. cbn [fst]. rewrite split_app by exact H. rewrite split_nocomma by exact H. reflexivity.
Qed.
Print Assumptions C171_list_refuted.
(** A job line runs a task only if it names one of the five scripts and gives configuration file, pixel and resolution; else it stops, as an unknown
    command or at its options. *)
Theorem C169_line line : (forall t, run_line line = Ok t -> exists script ws, words line = script :: ws /\ In script (map s_ ["redmapper_run_redmapper_pixel.py"; "redmapper_run_zred_pixel.py"; "redmapper_runcat_pixel.py";
      "redmapper_run_zmask_pixel.py"; "redmapper_run_zscan_pixel.py"]%string) /\ forall a b, In (a, b) [("-c", "--configfile"); ("-p", "--pixel"); ("-n", "--nside")]%string -> In (s_ a) ws \/ In (s_ b) ws) /\
  (forall e, run_line line = Err e -> match words line with
     | script :: _ => e = (if existsb (str_eqb script) (map s_ ["redmapper_run_redmapper_pixel.py"; "redmapper_run_zred_pixel.py"; "redmapper_runcat_pixel.py";
      "redmapper_run_zmask_pixel.py"; "redmapper_run_zscan_pixel.py"]%string) then RuntimeError else OSError)
     | [] => e = OSError end).
Proof.
  assert (SE : forall n ws o e, length ws <= n -> scan ws o = Err e -> e = RuntimeError).
  { induction n as [|n IH]; intros ws o e L H; destruct ws as [|f [|v t]]; cbn [length] in L; try lia; try discriminate; cbn [scan] in H; [congruence|].
    destruct (starts_dash v); [congruence|]. assert (Lt : length t <= n) by lia. repeat match type of H with (if ?b then _ else _) = _ => destruct b end; try (eapply IH; [exact Lt|exact H]); try congruence;
      (unfold int_of in H; destruct (_ && _)%bool; cbn [bind] in H; [eapply IH; [exact Lt|exact H]|congruence]). }
  assert (IO : forall a b w, is_opt a b w = true -> w = s_ a \/ w = s_ b) by (intros a b w H; unfold is_opt in H; apply Bool.orb_true_iff in H as [H|H]; apply str_eqb_iff in H; auto).
  assert (SO : forall n ws o o', length ws <= n -> scan ws o = Ok o' -> (~ (In (s_ "-c") ws \/ In (s_ "--configfile") ws) -> o_c o' = o_c o) /\
     (~ (In (s_ "-p") ws \/ In (s_ "--pixel") ws) -> o_p o' = o_p o) /\ (~ (In (s_ "-n") ws \/ In (s_ "--nside") ws) -> o_n o' = o_n o)).
  { induction n as [|n IH]; intros ws o o' L H; destruct ws as [|f [|v t]]; cbn [length] in L; try lia; cbn [scan] in H; try discriminate; try (injection H as <-; repeat split; reflexivity).
    destruct (starts_dash v); [discriminate|]. assert (Lt : length t <= n) by lia.
    assert (Z : forall a b, ~ (In (s_ a) (f :: v :: t) \/ In (s_ b) (f :: v :: t)) -> ~ (In (s_ a) t \/ In (s_ b) t) /\ is_opt a b f = false).
    { intros a b N. split; [intros [I|I]; apply N; [left|right]; right; right; exact I|]. destruct (is_opt a b f) eqn:X; [|reflexivity]. exfalso. apply N. apply IO in X as [-> | ->]; [left|right]; left; reflexivity. }
    destruct (is_opt "-c" "--configfile" f) eqn:E1; [destruct (IH _ _ _ Lt H) as (A & B & C); (split; [|split]); intros N; apply Z in N as [N E]; [rewrite E1 in E; discriminate|exact (B N)|exact (C N)]|].
    destruct (is_opt "-p" "--pixel" f) eqn:E2; [destruct (int_of v); [|discriminate]; cbn [bind] in H; destruct (IH _ _ _ Lt H) as (A & B & C); (split; [|split]); intros N; apply Z in N as [N E]; [exact (A N)|rewrite E2 in E; discriminate|exact (C N)]|].
    destruct (is_opt "-n" "--nside" f) eqn:E3; [destruct (int_of v); [|discriminate]; cbn [bind] in H; destruct (IH _ _ _ Lt H) as (A & B & C); (split; [|split]); intros N; apply Z in N as [N E]; [exact (A N)|exact (B N)|rewrite E3 in E; discriminate]|].
    destruct (is_opt "-d" "--path" f) eqn:E4; [destruct (IH _ _ _ Lt H) as (A & B & C); (split; [|split]); intros N; apply Z in N as [N E]; [exact (A N)|exact (B N)|exact (C N)]|discriminate]. }
  assert (DEC : forall a b (ws : list str), (In (s_ a) ws \/ In (s_ b) ws) \/ ~ (In (s_ a) ws \/ In (s_ b) ws)).
  { intros a b ws. destruct (in_dec (list_eq_dec Ascii.ascii_dec) (s_ a) ws); [left; left; assumption|]. destruct (in_dec (list_eq_dec Ascii.ascii_dec) (s_ b) ws); [left; right; assumption|]. right. tauto. }
  unfold run_line. destruct (words line) as [|script ws]; [split; [discriminate|congruence]|].
  assert (G : forall k, (exists t, (do o <- scan ws (mkOpts None None None None); match o_c o, o_p o, o_n o with Some c, Some p, Some n => Ok (mkTask k c p n (match o_d o with Some d => d | None => s_ "./" end)) | _, _, _ => Err RuntimeError end) = Ok t) ->
     forall a b, In (a, b) [("-c", "--configfile"); ("-p", "--pixel"); ("-n", "--nside")]%string -> In (s_ a) ws \/ In (s_ b) ws).
  { intros k (t & H). destruct (scan ws _) as [o|] eqn:So; [|discriminate]. cbn [bind] in H. destruct (SO _ ws _ _ (le_n _) So) as (A & B & C). cbn [o_c o_p o_n] in A, B, C. destruct (o_c o), (o_p o), (o_n o); try discriminate.
    intros a b I. destruct (DEC a b ws) as [X|X]; [exact X|]. exfalso. destruct I as [I|[I|[I|[]]]]; injection I as <- <-; [discriminate (A X)|discriminate (B X)|discriminate (C X)]. }
  assert (F : forall k e, (do o <- scan ws (mkOpts None None None None); match o_c o, o_p o, o_n o with Some c, Some p, Some n => Ok (mkTask k c p n (match o_d o with Some d => d | None => s_ "./" end)) | _, _, _ => Err RuntimeError end) = Err e -> e = RuntimeError).
  { intros k e H. destruct (scan ws _) as [o|] eqn:So; cbn [bind] in H; [destruct (o_c o), (o_p o), (o_n o); congruence|]. injection H as ->. apply (SE _ ws _ _ (le_n _) So). }
  set (five := map s_ _).
  assert (K : (exists k, kind_of script = Ok k /\ In script five /\ existsb (str_eqb script) five = true) \/ kind_of script = Err OSError /\ existsb (str_eqb script) five = false).
  { assert (Q : existsb (str_eqb script) five = true -> In script five) by (intros H; apply existsb_exists in H as (x & I & X); apply str_eqb_iff in X; subst x; exact I).
    destruct (existsb (str_eqb script) five) eqn:X; [left|right; split; [|reflexivity]].
    - unfold five in X. cbn [map existsb] in X. unfold kind_of. repeat match goal with |- context [if str_eqb script ?y then _ else _] => destruct (str_eqb script y); [eexists; split; [reflexivity|split; [exact (Q eq_refl)|reflexivity]]|] end. discriminate.
    - unfold five in X. cbn [map existsb] in X. unfold kind_of. repeat match goal with |- context [if str_eqb script ?y then _ else _] => destruct (str_eqb script y); [discriminate|] end. reflexivity. }
  destruct K as [(k & -> & I & ->)|[-> ->]]; cbn [bind].
  - split; [|apply F]. intros t H. exists script, ws. split; [reflexivity|]. split; [exact I|exact (G k (ex_intro _ t H))].
  - split; [discriminate|congruence].
Qed.
Print Assumptions C169_line.
(** A brace that is not closed, or closes nothing, in the text to be formatted is a ValueError. *)
Theorem C169_lone_brace v a c r : ~ In "{"%char a -> ~ In "}"%char a -> c <> "}"%char -> braces v None (a ++ s_ "{") = Err ValueError /\ braces v None (a ++ s_ "}") = Err ValueError /\
  braces v None (a ++ "}"%char :: c :: r) = Err ValueError /\ (c <> "{"%char -> ~ In "}"%char r -> braces v None (a ++ "{"%char :: c :: r) = Err ValueError).
Proof.
  intros A1 A2 C. rewrite !braces_app by assumption. split; [reflexivity|]. split; [reflexivity|]. split.
  - cbn. destruct (Ascii.eqb_spec c "}"%char); [contradiction|reflexivity].
  - intros D R. assert (U : forall n, braces v (Some n) (c :: r) = Err ValueError).
    { assert (W : forall s n, clean "}" s -> braces v (Some n) s = Err ValueError). { induction s as [|x s IH]; intros n H; [reflexivity|]. cbn [braces]. destruct (Ascii.eqb_spec x "}"%char) as [->|]; [exfalso; apply H; left; reflexivity|]. apply IH. intros I. apply H. right. exact I. }
      intros n. apply W. intros [I|I]; [contradiction|exact (R I)]. }
    cbn [braces]. change (Ascii.eqb "{" "{") with true. cbn iota. destruct (Ascii.eqb_spec c "{"%char); [contradiction|]. specialize (U []). cbn [braces] in U. rewrite U. reflexivity.
Qed.
Print Assumptions C169_lone_brace.
(** Any other run mode is refused, whatever time is given. *)
Theorem C170_mode_unknown m w : (forall k, ~ In (m, k) modes) -> wall_minutes m w = Err RuntimeError.
Proof.
  intros H. assert (N : (m < 0 \/ 4 < m)%Z).
  { destruct (Z.lt_ge_cases m 0) as [L|L]; [left; exact L|]. destruct (Z.lt_ge_cases 4 m) as [U|U]; [right; exact U|]. exfalso. assert (C : m = 0%Z \/ m = 1%Z \/ m = 2%Z \/ m = 3%Z \/ m = 4%Z) by lia.
    destruct C as [-> |[-> |[-> |[-> | ->]]]]; eapply H; cbn; eauto 10. }
  unfold wall_minutes. destruct (Z.eqb_spec m 0); [lia|]. destruct (Z.eqb_spec m 1); [lia|]. destruct (Z.leb_spec 2 m), (Z.leb_spec m 4); cbn [andb bind]; try reflexivity; lia.
Qed.
Print Assumptions C170_mode_unknown.
(** A percent sign at the end of a command, or before a letter that is not understood, is a ValueError. *)
Theorem C169_lone_percent a c r args : ~ In "%"%char a -> c <> "%"%char -> c <> "s"%char -> c <> "d"%char ->
  percent (a ++ s_ "%") args = Err ValueError /\ percent (a ++ "%"%char :: c :: r) args = Err ValueError.
Proof.
  intros A C1 C2 C3. rewrite !percent_app by exact A. split; [reflexivity|]. cbn [percent]. change (Ascii.eqb "%" "%") with true. cbn iota.
  destruct (Ascii.eqb_spec c "%"%char); [contradiction|]. destruct (Ascii.eqb_spec c "s"%char); [contradiction|]. destruct (Ascii.eqb_spec c "d"%char); [contradiction|]. reflexivity.
Qed.
Print Assumptions C169_lone_percent.
(** Nor is there a command for any other run mode. *)
Theorem C170_command_unknown m cfg nside : (forall k, ~ In (m, k) modes) -> run_command m cfg nside = Err RuntimeError.
Proof.
  intros H. assert (N : (m < 0 \/ 4 < m)%Z).
  { destruct (Z.lt_ge_cases m 0) as [L|L]; [left; exact L|]. destruct (Z.lt_ge_cases 4 m) as [U|U]; [right; exact U|]. exfalso. assert (C : m = 0%Z \/ m = 1%Z \/ m = 2%Z \/ m = 3%Z \/ m = 4%Z) by lia.
    destruct C as [-> |[-> |[-> |[-> | ->]]]]; eapply H; cbn; eauto 10. }
  unfold run_command, script_of. repeat (match goal with |- context [Z.eqb m ?k] => destruct (Z.eqb_spec m k); [lia|] end). reflexivity.
Qed.
Print Assumptions C170_command_unknown.
(** A pixel or a pixelisation that is not a non-empty string of digits is refused. *)
Theorem C169_not_a_number f v t o : In f [s_ "-p"; s_ "--pixel"; s_ "-n"; s_ "--nside"] ->
  v = [] \/ (exists c, In c v /\ (nat_of_ascii c < 48 \/ 57 < nat_of_ascii c)) -> scan (f :: v :: t) o = Err RuntimeError.
Proof.
  intros F V. assert (I : int_of v = Err RuntimeError).
  { unfold int_of. destruct V as [->|(c & C & B)]; [reflexivity|]. destruct (forallb is_digit v) eqn:E; [|rewrite andb_false_r; reflexivity].
    exfalso. rewrite forallb_forall in E. specialize (E c C). unfold is_digit in E. apply andb_true_iff in E. destruct E as [E1 E2].
    apply Nat.leb_le in E1. apply Nat.leb_le in E2. lia. }
  cbn [scan]. destruct (starts_dash v); [reflexivity|]. rewrite I.
  destruct F as [<-|[<-|[<-|[<-|[]]]]]; reflexivity.
Qed.
Print Assumptions C169_not_a_number.
