(** What the run modes do with one cluster: RunCatalog (runcat.py:117-182), RunZScan (run_zscan.py:64-66,
    110-250), the mask of a cluster (cluster_runner.py:429-444, 470-476; mask.py:47-70, 374-404). *)
From Coq Require Import QArith Qabs Qround.
From Verif.Base Require Import Py.
Local Open Scope nat_scope.
Local Open Scope list_scope.

(** ** Masks *)
(** mask.py:66-70: no mask *)
Definition no_mask (ra dec : list Q) : res (list bool) :=
  if Nat.eqb (length ra) (length dec) then Ok (map (fun _ => true) ra) else Err ValueError.
(** mask.py:374-404.  [frac]: the value of the sparse map, [None] where it has none, for which the library
    returns the sentinel [unseen]; [u]: the draws of np.random.rand. *)
Definition hp_mask (frac : Q -> Q -> option Q) (unseen : Q) (u : nat -> Q) (ra dec : list Q) : res (list bool) :=
  if negb (Nat.eqb (length ra) (length dec)) then Err ValueError
  else
    let value rd := if Qlt_bool (Qabs (snd rd)) 90 then match frac (fst rd) (snd rd) with Some f => f | None => unseen end else 0%Q in
    Ok (map (fun krd => Qlt_bool (u (fst krd)) (value (snd krd))) (combine (seq 0 (length ra)) (combine ra dec))).
(** a mask galaxy: its radius and whether it is unmasked *)
Definition mgal := (Q * bool)%type.
Definition inside (rcut : Q) (g : list mgal) : list mgal := filter (fun x => Qlt_bool (fst x) rcut) g.
Definition masked (g : list mgal) : list mgal := filter (fun x => negb (snd x)) g.
(** float(a)/float(b) *)
Definition ratio (a b : nat) : Q := (inject_Z (Z.of_nat a) / inject_Z (Z.of_nat b))%Q.
(** cluster_runner.py:430-432 *)
Definition maskfrac_first (g : list mgal) : res Q :=
  let ins := inside 1 g in
  if Nat.eqb (length ins) 0 then Err ZeroDivisionError else Ok (ratio (length (masked ins)) (length ins)).
(** cluster_runner.py:471-476 *)
Definition maskfrac_final (rlam : Q) (g : list mgal) : Q :=
  let ins := inside rlam g in
  if Nat.eqb (length ins) 0 then 1%Q else ratio (length (masked ins)) (length ins).

(** ** RunCatalog on one cluster *)
(** what the loop changes *)
Record cstate := mk_cstate { s_z : Q; s_lambda : Q; s_zl : Q; s_zle : Q }.
Record oracle := mk_oracle {
  rich : nat -> Q -> Q;              (* calc_richness: richness at a redshift, in the nth iteration *)
  zlam : nat -> Q -> Q * Q }.        (* calc_zlambda: redshift and error *)
Record options := mk_options { maxiter : Z; tol : Q; converge : bool }.
(** one pass through the loop, runcat.py:137-180, the cluster not being bad yet: new state, bad, done *)
Definition pass (o : oracle) (p : options) (maskfrac : Q) (n : nat) (s : cstate) : cstate * bool * bool :=
  if Qlt_bool (7 # 10) maskfrac then (s, true, true)
  else
    let lam := rich o n (s_z s) in
    let s := mk_cstate (s_z s) lam (s_zl s) (s_zle s) in
    if Qlt_bool lam 3 then (mk_cstate (s_z s) (-1) (-1) (-1), true, true)
    else
      let '(zl, zle) := zlam o n (s_z s) in
      if Qlt_bool zl 0 then (mk_cstate (s_z s) (-1) (-1) (-1), true, true)
      else
        let s := mk_cstate (s_z s) (s_lambda s) zl zle in
        if converge p then (mk_cstate zl (s_lambda s) zl zle, false, Qlt_bool (Qabs (s_z s - zl)) (tol p))
        else (s, false, true).
(** runcat.py:131-180: [while iteration < maxiter and not done]; the variable iteration stays 0.
    [None]: still in the loop after [fuel] passes.  Result: state, bad, number of passes. *)
Fixpoint loop (o : oracle) (p : options) (maskfrac : Q) (fuel : nat) (n : nat) (s : cstate) : option (cstate * bool * nat) :=
  if (0 <? maxiter p)%Z then
    match fuel with
    | O => None
    | S fuel' => let '(s', bad, done) := pass o p maskfrac n s in
                 if done then Some (s', bad, S n) else loop o p maskfrac fuel' (S n) s'
    end
  else Some (s, false, n).
Definition process (o : oracle) (p : options) (maskfrac : Q) (fuel : nat) (s : cstate) : option (cstate * bool * nat) :=
  loop o p maskfrac fuel 0 s.
(** cluster_runner.py:430-444: with the test for a hopeless cluster in front, and the reset of a bad one *)
Definition run_one (o : oracle) (p : options) (limmag : Q) (g : list mgal) (fuel : nat) (s : cstate) : res (option (cstate * bool)) :=
  do mf <- maskfrac_first g;
  let bad_reset s := mk_cstate (s_z s) (-1) (-1) (-1) in
  if Qeq_bool mf 1 || Qle_bool limmag 1 then Ok (Some (bad_reset s, true))
  else match process o p mf fuel s with
       | None => Ok None
       | Some (s', true, _) => Ok (Some (bad_reset s', true))
       | Some (s', false, _) => Ok (Some (s', false))
       end.

(** ** RunZScan *)
(** run_zscan.py:65-66 *)
Definition nzstep (z0 z1 step : Q) : Z := Qceiling ((z1 - z0) / step).
Definition z_array (z0 z1 step : Q) : list Q :=
  map (fun k => inject_Z (Z.of_nat k) * step + z0)%Q (seq 0 (Z.to_nat (nzstep z0 z1 step))).
(** what is found at one redshift: nothing (fewer than two galaxies, or richness below the minimum: the
    continue of lines 146 and 159), or the richness and the likelihood *)
Definition step_result := option (Q * Q).
(** run_zscan.py:137-174, with [ngal] galaxies selected, richness [lam] and the likelihood [like],
    [None] if there is no galaxy to compute it from *)
Definition scan_step (min_lambda : Q) (ngal : nat) (lam : Q) (like : option Q) : step_result :=
  if ngal <? 2 then None
  else if Qlt_bool lam min_lambda then None
  else Some (lam, match like with Some l => l | None => (-1)%Q end).
Definition lambda_steps (steps : list step_result) : list Q := map (fun s => match s with Some (l, _) => l | None => (-1)%Q end) steps.
Definition like_steps (steps : list step_result) : list Q := map (fun s => match s with Some (_, l) => l | None => (-1)%Q end) steps.
(** np.argmax: first position of the maximum *)
Fixpoint argmax_from (best : Q) (bi i : nat) (l : list Q) : nat :=
  match l with [] => bi | x :: t => if Qlt_bool best x then argmax_from x i (S i) t else argmax_from best bi (S i) t end.
Definition argmax (l : list Q) : res nat := match l with [] => Err ValueError | x :: t => Ok (argmax_from x 0 1 t) end.
(** run_zscan.py:176-185: index, likelihood and redshift of the maximum, and whether the cluster is bad *)
Record scan_out := mk_scan { max_ind : nat; lmax : Q; zmax : Q; scan_bad : bool }.
Definition scan (min_lambda : Q) (zs : list Q) (steps : list step_result) : res scan_out :=
  do i <- argmax (like_steps steps);
  Ok (mk_scan i (nth i (like_steps steps) 0%Q) (nth i zs 0%Q) (Qlt_bool (nth i (lambda_steps steps) 0%Q) min_lambda)).
(** run_zscan.py:201-245: the refinement; [r z]: richness / scaleval at redshift z, [zl]: z_lambda from the
    first round.  Result: bad, final redshift. *)
Definition refine (min_lambda : Q) (r1 : Q) (zl : Q) (r2 : Q -> Q) (zmax : Q) : bool * Q :=
  if Qlt_bool r1 min_lambda then (true, zmax)
  else if Qlt_bool zl 0 then (true, zmax)
  else let zuse := if Qlt_bool 0 zl then zl else zmax in
       if Qlt_bool (r2 zuse) min_lambda then (true, zuse) else (false, zl).
