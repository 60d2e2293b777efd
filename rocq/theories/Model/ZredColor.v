(** Model of redmapper/zred_color.py: the photometric redshift of one galaxy (94-279) and of a
    catalog (56-91).  Exact reals; [exp] and [sqrt] are Coq's.  The calibration tables, interpolated
    (utilities.py:555), are functions of redshift.  Not modelled: the sampling of p(z) (219-234) and
    float underflow. *)
From Coq Require Import Reals Lra.
From Verif.Base Require Import Py.
From Verif.Model Require Galfile.
From Verif.Model Require Import BkgGen.
Local Open Scope R_scope.

(** the grid (one more redshift than bins), its magnitude limits and its extrapolated bins *)
Record zgrid := { zg_n : nat; zg_z : nat -> R; zg_min : nat -> R; zg_max : nat -> R; zg_good : list nat }.
(** the interpolated correction tables *)
Record zcorr := { k_pivot : R -> R; k_corr : R -> R; k_slope : R -> R; k_r : R -> R;
                  k_corr2 : R -> R; k_slope2 : R -> R; k_r2 : R -> R }.
(** np.linalg least squares of 181-187: the three coefficients for the points of the given bins *)
Definition parabola : Type := list nat -> R * R * R.

(** zred_color.py:111-113 *)
Definition limited (g : zgrid) (mag : R) : list nat :=
  filter (fun i => Rltb mag (zg_max g i) && Rltb (zg_min g i) mag && Rltb (zg_z g i) 100) (seq 0 (zg_n g + 1)).
(** zred_color.py:119-122: np.arange of the two clipped ends *)
Definition zbins (g : zgrid) (lim : list nat) : list nat :=
  let lo := (hd O lim - 10)%nat in            (* clipped at 0 *)
  let hi := Nat.min (last lim O + 10) (zg_n g) in
  seq lo (hi - lo).
Definition mem (l : list nat) (i : nat) : bool := existsb (Nat.eqb i) l.

(** maximum of a function over a nonempty list *)
Definition rmax (f : nat -> R) (l : list nat) : R :=
  match l with [] => 0 | a :: r => fold_left (fun m i => if Rltb m (f i) then f i else m) r (f a) end.

(** zred_color.py:124-134: [lnd] is the log density of 281-321, where anything that is not finite has
    been replaced by -1e11 *)
Definition dist (bins : list nat) (lnd : nat -> R) (i : nat) : R :=
  if mem bins i then exp (lnd i - rmax lnd bins) else 0.
(** zred_color.py:108,124: the log density outside the bins *)
Definition lndist (bins : list nat) (lnd : nat -> R) (i : nat) : R := if mem bins i then lnd i else -1000000000000.

(** scipy.integrate.trapezoid over a list of bins *)
Fixpoint trapz (z f : nat -> R) (l : list nat) : R :=
  match l with
  | a :: ((b :: _) as r) => (z b - z a) * (f a + f b) / 2 + trapz z f r
  | _ => 0 end.
Definition rsum (f : nat -> R) (l : list nat) : R := fold_right (fun i s => f i + s) 0 l.
(** zred_color.py:142-151, 203-208: the integral with three bins or more, else the sum *)
Definition integ (g : zgrid) (f : nat -> R) (l : list nat) : R :=
  if Nat.leb 3 (length l) then trapz (zg_z g) f l else rsum f l.
(** zred_color.py:140 *)
Definition calcinds (g : zgrid) (d : nat -> R) : list nat :=
  filter (fun i => Rltb (1/100000) (d i)) (seq 0 (zg_n g)).
(** zred_color.py:143-145 / 149-150 *)
Definition zmean (g : zgrid) (d : nat -> R) (l : list nat) : R :=
  integ g (fun i => d i * zg_z g i) l / integ g d l.
(** zred_color.py:146-158 *)
Definition zerr (g : zgrid) (d : nat -> R) (l : list nat) : R :=
  let v := integ g (fun i => d i * (zg_z g i * zg_z g i)) l / integ g d l - zmean g d l * zmean g d l in
  let e := if Rltb v 0 then 1 else sqrt v in
  if Rltb (5/1000) e then e else 5/1000.

(** np.argmax of a nonempty list: the first of the largest *)
Fixpoint argmax_from (f : nat -> R) (best : nat) (l : list nat) : nat :=
  match l with [] => best | i :: r => argmax_from f (if Rltb (f best) (f i) then i else best) r end.
(** zred_color.py:161-162 *)
Definition peak (d : nat -> R) (good : list nat) : res nat :=
  match good with [] => Err ValueError | a :: r => Ok (argmax_from d a r) end.

(** zred_color.py:166-180: the bins of the parabola, or None when there are too few.  Indices are
    integers: [ind - 2] may be negative. *)
Definition window (g : zgrid) (ln : nat -> R) (ind : nat) : option (list nat) :=
  let use := filter (fun i => Rltb (-10000000000) (ln i)) (seq 0 (zg_n g)) in
  if Nat.leb 5 (length use) then
    let minuse := Z.of_nat (hd O use) in let maxuse := Z.of_nat (last use O) in
    let ind := Z.of_nat ind in
    let minindex := (if minuse >? ind - 2 then minuse else ind - 2)%Z in
    let maxindex := (if maxuse <? ind + 2 then maxuse else ind + 2)%Z in
    let '(minindex, maxindex) :=
      (if minindex =? minuse then (minindex, Z.min (minuse + 4) maxuse)
       else if maxindex =? maxuse then (Z.max (maxuse - 1 - 4) minuse, maxindex)
       else (minindex, maxindex))%Z in
    if (5 <=? maxindex - minindex + 1)%Z
    then Some (map Z.to_nat (map (fun k => minindex + Z.of_nat k)%Z (seq 0 (Z.to_nat (maxindex - minindex + 1)))))
    else None
  else None.
(** zred_color.py:164, 181-193 *)
Definition refine (P : parabola) (w : option (list nat)) (zm ze : R) : R :=
  match w with
  | None => zm
  | Some l => let '(a, b, _) := P l in
      if Rltb a 0 then
        let ztry := - b / (2 * a) in
        if Rltb (Rabs (ztry - zm)) (2 * ze) then ztry else zm
      else zm
  end.
(** zred_color.py:196-208: the likelihood at the peak; None when it is not finite (0/0) *)
Definition lkhd (g : zgrid) (ln : nat -> R) (calc : list nat) (z ze : R) : option R :=
  let nd := fun i => if Rltb (ln i) (-10000000000) then 0
                     else exp (- (1/2) * ((zg_z g i - z) / ze) * ((zg_z g i - z) / ze)) in
  let l2 := fun i => if Rltb (ln i) (-10000000000) then -100000000000 else ln i in
  let n := integ g nd calc in
  if Req_EM_T n 0 then None else Some (integ g (fun i => nd i * l2 i) calc / n).
(** zred_color.py:211-212: chi-squared in the nearest bin of the grid *)
Fixpoint argmin_from (f : nat -> R) (best : nat) (l : list nat) : nat :=
  match l with [] => best | i :: r => argmin_from f (if Rltb (f i) (f best) then i else best) r end.
Definition near_bin (g : zgrid) (z : R) : nat :=
  argmin_from (fun i => Rabs (z - zg_z g i)) O (seq 1 (zg_n g)).

(** the stored columns *)
Record zout := { o_zred : R; o_zred_e : R; o_zred2 : R; o_zred2_e : R; o_unc : R; o_unc_e : R;
                 o_chisq : R; o_lkhd : R }.
(** zred_color.py:323-340 *)
Definition bad_values : zout :=
  {| o_zred := -1; o_zred_e := -1; o_zred2 := -1; o_zred2_e := -1; o_unc := -1; o_unc_e := -1;
     o_chisq := -1; o_lkhd := -1000 |}.

(** zred_color.py:94-240: everything before the corrections; None = reset to the bad values.  Outside
    the bins the chi-squared array holds 1e12. *)
Definition uncorrected (g : zgrid) (P : parabola) (mag : R) (lnd chisq : nat -> R) : res (option zout) :=
  let lim := limited g mag in
  if Nat.ltb (length lim) 2 then Ok None else
  let bins := zbins g lim in
  let d := dist bins lnd in
  let ln := lndist bins lnd in
  do ind <- peak d (zg_good g);
  let calc := calcinds g d in
  let zm := zmean g d calc in
  let ze := zerr g d calc in
  let z := refine P (window g ln ind) zm ze in
  match lkhd g ln calc z ze with
  | None => Ok None
  | Some lk => let b := near_bin g z in
      Ok (Some {| o_zred := z; o_zred_e := ze; o_zred2 := z; o_zred2_e := ze; o_unc := z; o_unc_e := ze;
                  o_chisq := (if mem bins b then chisq b else 1000000000000); o_lkhd := lk |})
  end.

(** zred_color.py:251 *)
Definition dz_step (k : zcorr) (mag z piv dz : R) : R := k_corr k (z + dz) + (mag - piv) * k_slope k (z + dz).
(** zred_color.py:249-252 *)
Fixpoint dz_loop (fuel : nat) (k : zcorr) (mag z piv olddz dz : R) : R :=
  match fuel with
  | O => dz
  | S f => if Rltb (1/1000) (Rabs (olddz - dz)) then dz_loop f k mag z piv dz (dz_step k mag z piv dz) else dz
  end.
(** zred_color.py:242-265 *)
Definition correct_one (k : zcorr) (mag : R) (o : zout) : zout :=
  let z := o_zred o in
  let piv := k_pivot k z in
  let zc := z + dz_loop 10 k mag z piv (-1) 0 in
  {| o_zred := zc; o_zred_e := o_zred_e o * k_r k zc;
     o_zred2 := o_zred2 o + (k_corr2 k (o_zred2 o) + (mag - piv) * k_slope2 k (o_zred2 o));
     o_zred2_e := o_zred2_e o * k_r2 k (o_zred2 o);
     o_unc := o_unc o; o_unc_e := o_unc_e o; o_chisq := o_chisq o; o_lkhd := o_lkhd o |}.
(** zred_color.py:94-279 *)
Definition compute_zred (g : zgrid) (P : parabola) (k : zcorr) (do_corr no_corr : bool) (mag : R) (lnd chisq : nat -> R) : res zout :=
  do o <- uncorrected g P mag lnd chisq;
  match o with
  | None => Ok bad_values
  | Some o => Ok (if do_corr && negb no_corr then correct_one k mag o else o)
  end.

(** zred_color.py:77-91 for one row of the catalog *)
Fixpoint dz_bulk (n : nat) (k : zcorr) (mag z piv dz : R) : R :=
  match n with O => dz | S m => dz_bulk m k mag z piv (dz_step k mag z piv dz) end.
Definition correct_bulk (k : zcorr) (mag : R) (o : zout) : zout :=
  let z := o_unc o in
  let piv := k_pivot k z in
  let zc := z + dz_bulk 5 k mag z piv 0 in
  {| o_zred := zc; o_zred_e := o_unc_e o * k_r k zc;
     o_zred2 := z + k_corr2 k z; o_zred2_e := o_unc_e o * k_r2 k z;
     o_unc := o_unc o; o_unc_e := o_unc_e o; o_chisq := o_chisq o; o_lkhd := o_lkhd o |}.
Record zgal := { zx_mag : R; zx_lnd : nat -> R; zx_chisq : nat -> R }.
(** zred_color.py:56-91 *)
Definition compute_zreds (g : zgrid) (P : parabola) (k : zcorr) (do_corr : bool) (gs : list zgal) : res (list zout) :=
  do os <- Galfile.mapM (fun x => do o <- compute_zred g P k do_corr true (zx_mag x) (zx_lnd x) (zx_chisq x); Ok (x, o)) gs;
  Ok (map (fun xo => if do_corr then correct_bulk k (zx_mag (fst xo)) (snd xo) else snd xo) os).
