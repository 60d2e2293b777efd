(** Work division: zred_runner.py:76-81, redmapper_run.py:154-246, background.py:345-366 and 493-528. *)
From Verif.Base Require Import Py.
From Coq Require Import Qround.

(** ** zred_runner.py:76-81 *)
(** int(float(ngal) / (nproc - 0.1)), clipped to maxperproc; exact rational arithmetic for the division *)
Definition default_nperproc (ngal nproc maxperproc : nat) : nat :=
  Nat.min (Z.to_nat (Qfloor (inject_Z (Z.of_nat ngal) / (inject_Z (Z.of_nat nproc) - (1#10)))%Q)) maxperproc.
(** np.arange(0, ngal, n) has ceil(ngal/n) elements 0, n, 2n, ... *)
Definition starts (ngal n : nat) : list nat := map (fun k => k * n) (seq 0 ((ngal + n - 1) / n)).
(** the worker list; numpy's arange raises ZeroDivisionError for a zero step *)
Definition zred_chunks (ngal nperproc : nat) : res (list (nat * nat)) :=
  if Nat.eqb nperproc 0 then Err ZeroDivisionError
  else Ok (map (fun ind => (ind, Nat.min (ind + nperproc) ngal)) (starts ngal nperproc)).
Definition zred_run_chunks (ngal nproc maxperproc : nat) : res (list (nat * nat)) :=
  zred_chunks ngal (default_nperproc ngal nproc maxperproc).

(** ** redmapper_run.py:211-246 [_get_subpixels] *)
Record split_geo := mkSG {
  sg_up : nat -> Z -> Z;      (* galaxy-table pixel -> pixel of resolution nside containing its centre *)
  sg_par : nat -> Z -> Z;     (* pixel of resolution nside -> pixel of the config's resolution *)
  sg_npix : nat -> nat;       (* number of pixels at a resolution *)
  sg_hpix : list Z;           (* config.d.hpix *)
  sg_tab : list Z;            (* hpix of the galaxy table *)
  sg_tabnside : nat }.
(** np.unique *)
Fixpoint insertZ (x : Z) (l : list Z) : list Z :=
  match l with
  | [] => [x]
  | y :: t => if (x <? y)%Z then x :: l else if (x =? y)%Z then l else y :: insertZ x t
  end.
Definition uniqueZ (l : list Z) : list Z := fold_right insertZ [] l.

Definition get_subpixels (g : split_geo) (ns : nat) : res (list Z) :=
  let pixels := map Z.of_nat (seq 0 (sg_npix g ns)) in
  do pixels <- (if Nat.ltb 0 (List.length (sg_hpix g)) then
                  do m <- eu_match (sg_hpix g) (map (sg_par g ns) pixels);
                  np_take pixels (snd m)
                else Ok pixels);
  do m <- eu_match pixels (map (sg_up g ns) (sg_tab g));
  do ps <- np_take pixels (fst m);
  Ok (uniqueZ ps).

(** redmapper_run.py:191-199: the resolutions tried: n0, 2 n0, ... up to the first that is not below the
    table's.  [None]: the loop does not end within the fuel. *)
Fixpoint resolutions (fuel n tabnside : nat) : option (list nat) :=
  match fuel with
  | 0 => None
  | S f => if Nat.ltb n tabnside
           then match resolutions f (2 * n) tabnside with Some l => Some (n :: l) | None => None end
           else Some [n]
  end.
Fixpoint mapM {A B} (f : A -> res B) (l : list A) : res (list B) :=
  match l with [] => Ok [] | x :: t => do y <- f x; do r <- mapM f t; Ok (y :: r) end.
Definition last_where {A} (p : A -> bool) (l : list A) : option A :=
  fold_left (fun acc x => if p x then Some x else acc) l None.

(** redmapper_run.py:154-209 [_get_pixel_splits] *)
Definition get_pixel_splits (g : split_geo) (dnside min_nside nproc : nat) : res (nat * list Z) :=
  if Nat.eqb nproc 1 then
    if Nat.ltb min_nside dnside then Err AttributeError          (* 172: config.run_min_nside *)
    else let n := Nat.max dnside 1 in do s <- get_subpixels g n; Ok (n, s)
  else
    let n0 := if Nat.eqb (List.length (sg_hpix g)) 0 then min_nside
              else if Nat.ltb min_nside dnside then dnside else min_nside in
    match resolutions (S (sg_tabnside g)) n0 (sg_tabnside g) with
    | None => Err RuntimeError      (* out of fuel: the real loop would not end *)
    | Some ns =>
        do ss <- mapM (fun n => do s <- get_subpixels g n; Ok (n, s)) ns;
        match last_where (fun x => Nat.leb (List.length (snd x)) (2 * nproc)) ss, ss with
        | Some x, _ => Ok x
        | None, x :: _ => Ok x
        | None, [] => Err IndexError
        end
    end.

(** ** background.py:493-516: the galaxy ranges one worker reads *)
Fixpoint bkg_pixel_ranges (ctr ngal : nat) (counts : list nat) : list (nat * nat) :=
  match counts with
  | [] => []
  | c :: rest =>
      if Nat.ltb ctr ngal then
        if Nat.eqb c 0 then bkg_pixel_ranges ctr ngal rest
        else (ctr, ctr + c) :: bkg_pixel_ranges (ctr + c) ngal rest
      else []
  end.
(** non-pixelised: npix = 0 (471), so the condition p < npix (496) is false at once *)
Fixpoint bkg_rows_ranges (fuel ctr ngal npix natatime : nat) : list (nat * nat) :=
  match fuel with
  | 0 => []
  | S f => if Nat.ltb ctr ngal && Nat.ltb 0 npix
           then (ctr, Nat.min (ctr + natatime) ngal) :: bkg_rows_ranges f (Nat.min (ctr + natatime) ngal + 1) ngal npix natatime
           else []
  end.
Definition bkg_ranges (pixelized : bool) (counts : list nat) (nrows natatime : nat) : list (nat * nat) :=
  if pixelized then bkg_pixel_ranges 0 (fold_right Nat.add 0 counts) counts
  else bkg_rows_ranges (S nrows) 0 nrows 0 natatime.
