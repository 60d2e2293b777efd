(** The redshift of a cluster object and its copy, cluster.py:127-162, 173-188, 253-264, 367-390, 781-862; how the richness depends on
    the redshift, cluster_runner.py:454-498; and the richness at other centres, run_percolation.py:404-436, run_zscan.py:248-304.
    Simplified: the magnitude scale mstar, the angular scale and the richness at a redshift are inputs; of the neighbours only the
    angular distance and the radius change; the row of the catalogue is a function of the name of the field. *)
From Coq Require Import Reals Lra String.
From Verif.Base Require Import Py.
From Coq Require Import Lia List. Import ListNotations.
Local Open Scope R_scope.

(** ** the cluster object *)
(** a neighbour: angular distance, radius in Mpc, everything else *)
Record nb := mkNb { n_dist : R; n_r : R; n_rest : nat }.
(** [c_z], [c_mstar], [c_scale]: None until a redshift is set (156-162); [c_zbk]: whether it has the background of redshifts *)
Record cl := mkCl { c_row : string -> R; c_r0 : R; c_beta : R; c_z : option R; c_mstar : option R; c_scale : option R;
                    c_nbs : option (list nb); c_zbk : bool }.
Section Cluster.
(** zredstr.mstar and the angular scale of the cosmology *)
Variables mstar scale : R -> R.
(** 835-837 *)
Definition with_r (s : R) (n : nb) : nb := mkNb (n_dist n) (Rmax (s * n_dist n) (1 / 1000000)) (n_rest n).
(** 785-801 *)
Definition set_redshift (v : R) (c : cl) : res cl :=
  if Rlt_dec v 0 then Err ValueError
  else let z := Rmax v (1 / 100) in
       Ok (mkCl (c_row c) (c_r0 c) (c_beta c) (Some z) (Some (mstar z)) (Some (scale z)) (option_map (map (with_r (scale z))) (c_nbs c)) (c_zbk c)).
(** 249-254, 261-264: new neighbours or new distances, and their radii if a redshift is set *)
Definition set_nbs (l : list nb) (c : cl) : cl :=
  mkCl (c_row c) (c_r0 c) (c_beta c) (c_z c) (c_mstar c) (c_scale c) (Some (match c_scale c with Some s => map (with_r s) l | None => l end)) (c_zbk c).
(** 849-862: a new Cluster without catalogue values (127-135: all 0, so no redshift, 159-162) and without zredbkg; then the redshift is set,
    where None < 0.0 is a TypeError *)
Definition copy (c : cl) : res cl :=
  match c_z c with
  | None => Err TypeError
  | Some v => set_redshift v (mkCl (fun _ => 0) (c_r0 c) (c_beta c) None None None (c_nbs c) false)
  end.
(** 386-390; [sigma]: the background of redshifts *)
Definition zred_bkg (sigma : R) (r : R) (c : cl) : res R :=
  if c_zbk c then match c_scale c with Some s => Ok (2 * PI * r * (sigma / s ^ 2)) | None => Err TypeError end else Err AttributeError.
End Cluster.

(** ** cluster_runner.py:479-498; [lam], [err]: richness and error at a redshift *)
Record deriv := mkD { d_1 : R; d_2 : R; d_var1 : R; d_var2 : R }.
Definition at_redshift (v : R) : res R := if Rlt_dec v 0 then Err ValueError else Ok (Rmax v (1 / 100)).
Definition plusminus (lam err : R -> R) (zl eps big_lambda big_err : R) : res (option deriv) :=
  do zm <- at_redshift (zl - eps);
  do zp <- at_redshift (zl + eps);
  Ok (if Rlt_dec 0 (lam zm) then
        if Rlt_dec 0 (lam zp) then
          Some (mkD ((ln (lam zp) - ln (lam zm)) / (2 * eps)) ((ln (lam zp) + ln (lam zm) - 2 * ln big_lambda) / eps ^ 2)
                    ((err zp ^ 2 - err zm ^ 2) / (2 * eps)) ((err zp ^ 2 + err zm ^ 2 - 2 * big_err ^ 2) / eps ^ 2))
        else None
      else None).
(** 454-468, 479-498: the richness [lam z] was computed at redshift z, before [corr] is applied to it *)
Definition measured (lam err : R -> R) (corr : R -> R) (eps z : R) : res (option deriv) := plusminus lam err (corr z) eps (lam z) (err z).

(** ** run_percolation.py:404-436 *)
Section Centres.
Context {Pos Marks : Type}.
(** the mask around a position (set_radmask), and the richness at a centre with a mask; -1 if it fails *)
Variable marks_at : Pos -> Marks.
Variable rich : Pos -> Marks -> R.
(** 405-417: the richness at every candidate; only the mask of the first is ever set; the rest of the [maxcent] entries stays 0 *)
Definition lambda_cent (maxcent : nat) (cents : list Pos) : list R :=
  match cents with
  | [] => repeat 0 maxcent
  | p0 :: alts => (rich p0 (marks_at p0) :: map (fun p => rich p (marks_at p0)) alts) ++ repeat 0 (maxcent - S (List.length alts))
  end.
Definition sumR (l : list R) : R := fold_right Rplus 0 l.
(** 425-433; [pcen]: probabilities of all entries *)
Definition average (maxcent : nat) (cents : list Pos) (pcen : list R) : R * R :=
  let ls := lambda_cent maxcent cents in
  if Nat.ltb 1 (List.length cents) then
    let c := sumR (map (fun q => fst q * snd q) (combine pcen ls)) in
    (c, sqrt (Rmax (sumR (map (fun q => fst q * snd q ^ 2) (combine pcen ls)) - c ^ 2) 0))
  else (nth 0 ls 0, 0).
(** run_zscan.py:258-259, 288-297: the richness at the optical centre, with the mask of the given position *)
Definition lambda_opt (given opt : Pos) : R := rich opt (marks_at given).
End Centres.
