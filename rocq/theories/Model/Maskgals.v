(** The mask galaxies: drawing from a density (utilities.py:883-919), the radial bins (mask.py:128-132), reading the file
    (mask.py:72-116), the depth at their positions (depthmap.py:137-194, cluster_runner.py:422-436) and the local background
    (cluster.py:392-456).  Rational arithmetic; random numbers, the density functions, pi and the look-ups are inputs. *)
From Coq Require Import QArith Qround.
From Verif.Base Require Import Py.
From Verif.Model Require Import Util.
From Coq Require Import Lia List. Import ListNotations.
Local Open Scope Q_scope.

Definition Qn (n : nat) : Q := inject_Z (Z.of_nat n).

(** ** utilities.py:906-917 for one random number *)
(** the values of the density on the grid; [None] is an infinite one *)
Definition finite (f : list (option Q)) : option (list Q) :=
  fold_right (fun x acc => match x, acc with Some v, Some l => Some (v :: l) | _, _ => None end) (Some []) f.
(** 908-910: int(cdf * n); with an infinite value the entries before it are 0 and those from it on are NaN, turned into the
    smallest integer by astype, here [None]: never >= a random number *)
Fixpoint cdfi_inf (f : list (option Q)) : list (option Z) :=
  match f with
  | [] => []
  | Some _ :: t => Some 0%Z :: cdfi_inf t
  | None :: t => map (fun _ => None) f
  end.
Definition cdfi (f : list (option Q)) : list (option Z) :=
  match finite f with
  | Some pdf => map (fun c => Some (Qtrunc (c * Qn (length f)))) (cumsum (map (fun p => p / Qsum pdf) pdf))
  | None => cdfi_inf f
  end.
Definition drawn (f : list (option Q)) (u : Q) : res nat :=
  let rand := Qtrunc (u * Qn (length f)) in
  match np_where (fun c => match c with Some c => (rand <=? c)%Z | None => false end) (cdfi f) with
  | [] => Err IndexError                         (* test[0] *)
  | k :: _ => Ok k
  end.
(** utilities.py:52-67 at chisq 0: 0 ** (k/2 - 1) *)
Definition chisq_at_zero (k : nat) : option Q :=
  match k with 1%nat => None | 2%nat => Some (1 # 2) | _ => Some 0 end.

(** ** mask.py:128-132, [a]: r0 * (3/100)^beta, [b]: r0 * (300/100)^beta *)
Definition minrad (a : Q) : Q := Qmin2 (inject_Z (Qfloor (10 * a)) / 10) (1 # 2).
Definition maxrad (b : Q) : Q := inject_Z (Qceiling (10 * b)) / 10.
Definition radbins (a b step : Q) : list Q :=
  map (fun i => Qn i * step + minrad a) (seq 0 (Z.to_nat (Qceiling ((maxrad b - minrad a) / step) + 1))).

(** ** mask.py:84-95 and 110-114 *)
(** a file: its version, the settings in its header, its rows *)
Record mfile {A} := mkMF { mf_version : Z; mf_header : list Q; mf_rows : list A }.
Arguments mfile : clear implicits.
Definition CURRENT : Z := 7.
Definition read_maskgals {A} (f : option (mfile A)) : res (list A) :=
  match f with
  | None => Err RuntimeError
  | Some f => if (mf_version f =? CURRENT)%Z then Ok (mf_rows f) else Err RuntimeError
  end.
Definition select {A} (ngals index : nat) (rows : list A) : list A := firstn ngals (skipn (index * ngals) rows).

(** ** depthmap.py:155-194 *)
(** one mask galaxy: |dec| < 90; limmag, exptime, m50 of the map there; exptime and m50 in it from before *)
Record mpos := mkMP { mp_in : bool; mp_lim : Q; mp_exp : Q; mp_m50 : Q; mp_exp0 : Q; mp_m500 : Q }.
Record depthv := mkDV { dv_lim : Q; dv_exp : Q; dv_m50 : Q }.
(** numpy.median of a non-empty list *)
Fixpoint ins (x : Q) (l : list Q) : list Q := match l with [] => [x] | y :: t => if Qle_bool x y then x :: l else y :: ins x t end.
Definition sortQ (l : list Q) : list Q := fold_right ins [] l.
Definition medianQ (l : list Q) : Q :=
  let s := sortQ l in let n := length l in
  (nth ((n - 1) / 2) s 0 + nth (n / 2) s 0) / 2.
Definition meanQ (l : list Q) : Q := Qsum l / Qn (length l).
(** [unseen]: the marker of the map, a large negative number *)
Definition at_pos (unseen : Q) (p : mpos) : depthv :=
  if mp_in p then mkDV (mp_lim p) (mp_exp p) (mp_m50 p) else mkDV unseen (mp_exp0 p) (mp_m500 p).
Definition calc_maskdepth (unseen : Q) (ps : list mpos) : list depthv :=
  let vals := map (at_pos unseen) ps in
  let bad v := Qlt_bool (dv_lim v) 0 in
  let ok := filter (fun v => negb (bad v)) vals in
  let fill (v : depthv) := map (fun w => if bad w then v else w) vals in
  if existsb bad vals then
    match length ok with
    | O => map (fun _ => mkDV 1 1000 0) vals
    | 1%nat | 2%nat => fill (mkDV (meanQ (map dv_lim ok)) (meanQ (map dv_exp ok)) (meanQ (map dv_m50 ok)))
    | _ => fill (mkDV (medianQ (map dv_lim ok)) (medianQ (map dv_exp ok)) (medianQ (map dv_m50 ok)))
    end
  else vals.
(** cluster_runner.py:423, 434 *)
Definition bad_depth (vs : list depthv) : bool := Qle_bool (medianQ (map dv_lim vs)) 1.

(** ** cluster.py:392-456 *)
(** a mask galaxy: sigma_g ([None]: not finite), chisq and luminosity weights, magnitude, depth there, r_uniform, unmasked *)
Record lgal := mkLG { lg_sigma : option Q; lg_cpdf : Q; lg_lpdf : Q; lg_mag : Q; lg_depth : Q; lg_r : Q; lg_mark : bool; lg_chisq : Q }.
(** a neighbour: r, magnitude, chisq, depth there *)
Record ngal := mkNG { ng_r : Q; ng_mag : Q; ng_chisq : Q; ng_depth : Q }.
Definition bright_enough (maxmag : Q) (g : lgal) : bool :=
  Qlt_bool (lg_mag g) maxmag && (match lg_sigma g with Some _ => true | None => false end) &&
  Qlt_bool 0 (lg_cpdf g) && Qlt_bool 0 (lg_lpdf g) && Qlt_bool (lg_mag g) (lg_depth g).
Definition weight (g : lgal) : Q := match lg_sigma g with Some s => s / (lg_cpdf g * lg_lpdf g) | None => 0 end.
(** 432; no galaxy bright enough is 0/0, a NaN: None *)
Definition prediction (maxmag : Q) (gs : list lgal) : option Q :=
  match filter (bright_enough maxmag) gs with
  | [] => None
  | be => Some (Qsum (map weight be) / Qn (length be))
  end.
Definition in_ring (a0 a1 r : Q) : bool := Qlt_bool a0 r && Qlt_bool r a1.
Definition maxQ (l : list Q) : Q := match l with [] => 0 | x :: t => fold_left Qmax2 t x end.
Definition counted (a0 a1 maxmag : Q) (gs : list lgal) (ns : list ngal) : list ngal :=
  filter (fun n => in_ring a0 a1 (ng_r n) && Qlt_bool (ng_mag n) maxmag &&
                   Qlt_bool (ng_chisq n) (maxQ (map lg_chisq gs)) && Qlt_bool (ng_mag n) (ng_depth n)) ns.
(** 434-456; the result is not a number when the area or the prediction is zero or missing *)
Definition bkg_local (pi a0 a1 scale maxmag : Q) (gs : list lgal) (ns : list ngal) : res (option Q) :=
  let ring := filter (fun g => in_ring a0 a1 (lg_r g)) gs in
  match ring with
  | [] => Err ZeroDivisionError                  (* float(..) / float(in_annulus.size) *)
  | _ =>
      let good := filter lg_mark ring in
      let area := pi * ((a1 / scale) * (a1 / scale) - (a0 / scale) * (a0 / scale)) * (Qn (length good) / Qn (length ring)) in
      match prediction maxmag gs with
      | None => Ok None
      | Some p => if Qeq_bool area 0 || Qeq_bool p 0 then Ok None
                  else Ok (Some (Qn (length (counted a0 a1 maxmag gs ns)) / area / p))
      end
  end.
