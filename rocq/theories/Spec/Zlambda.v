(** What the cluster redshift properties speak about. *)
From Coq Require Import QArith Qabs.
From Verif.Base Require Import Py.
From Verif.Model Require Import Zlambda.
Local Open Scope nat_scope.

(** usable for the redshift: inside the radius, brighter than the limit, with positive weight *)
Definition usable (maxrad maxmag : Q) (n : zn) : Prop := (z_r n < maxrad /\ z_mag n < maxmag /\ 0 < z_wt n)%Q.
(** at least three different positions hold usable neighbours *)
Definition three_usable (maxrad maxmag : Q) (l : list zn) : Prop :=
  exists i j k a b c, i < j < k /\ nth_error l i = Some a /\ nth_error l j = Some b /\ nth_error l k = Some c /\
    usable maxrad maxmag a /\ usable maxrad maxmag b /\ usable maxrad maxmag c.
(** exp is positive and at most 1 below 0 *)
Definition exp_like (ex : Q -> Q) : Prop := forall x, (0 < ex x)%Q /\ ((x <= 0)%Q -> (ex x <= 1)%Q).

(** a uniform grid of n points from a in steps of h > 0 *)
Definition uniform (n : nat) (a h : Q) (g : list Q) : Prop :=
  (0 < h)%Q /\ List.length g = n /\ forall i x, nth_error g i = Some x -> (x == a + h * inject_Z (Z.of_nat i))%Q.
(** an integration rule that is homogeneous in the integrand *)
Definition homogeneous (simps : list Q -> list Q -> Q) : Prop :=
  forall c ys xs, (simps (map (fun y => y / c) ys) xs == simps ys xs / c)%Q.
(** all later passes found a galaxy sample but no minimum of the fitted parabola *)
Definition never_measured (tr : list pass) : Prop := forall p, In p tr -> p = Fit None.

(** The redshift a pass at z proposes: the vertex of its parabola, at most 5.5 steps away; -1 where there is no minimum. *)
Definition proposes (step z : Q) (v : option Q) (z' : Q) : Prop :=
  let lo := (z - (11#2) * step)%Q in let hi := (z + (11#2) * step)%Q in let x := match v with Some x => x | None => (-1)%Q end in
  ((x < lo -> z' == lo) /\ (hi < x -> z' == hi) /\ (lo <= x <= hi -> z' == x))%Q.
(** The passes of a search that starts at zin and ends at z: [zs] are the redshifts they were made at, [tr] what they
    found, [what i z] what the i-th pass finds at z.  Each pass is made at the redshift the pass before proposed. *)
Definition search (what : nat -> Q -> pass) (step tol : Q) (maxiter : nat) (zin : Q) (zs : list Q) (tr : list pass) (z : Q) : Prop :=
  List.length zs = List.length tr /\ List.length tr <= maxiter /\ nth_error zs 0 = Some zin /\
  (forall i zi p, nth_error zs i = Some zi -> nth_error tr i = Some p -> p = what i zi) /\
  (forall i zi v z', nth_error zs i = Some zi -> nth_error tr i = Some (Fit v) -> nth_error zs (S i) = Some z' -> proposes step zi v z' /\ (0 <= z')%Q) /\
  exists zl p, nth_error zs (List.length tr - 1) = Some zl /\ nth_error tr (List.length tr - 1) = Some p /\
    match p with
    | Fit v => exists z', proposes step zl v z' /\
        ((2 <= List.length tr /\ (Qabs (z' - zl) < tol \/ z' < 0)%Q /\ z = zl) \/          (* converged *)
         ((z' < 0)%Q /\ List.length tr = 1 /\ z = z') \/ (List.length tr = maxiter /\ z = z'))
    | _ => z = (-1)%Q
    end.
