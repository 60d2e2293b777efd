(** Model of redmapper/galaxy.py:90-366 [GalaxyCatalog.from_galfile] and 476-521
    [get_subpixel_indices].  Column bookkeeping (truth/zspec columns, dtypes, 239-288) is not modelled;
    nothing else is dropped.  healpix geometry enters through [geo]. *)
From Verif.Base Require Import Py.

Record row := mkRow { rpos : Z; rmag : Q; rdat : Z }.     (* position, refmag, everything else *)
Record zrow := mkZ { zchi : Q; zdat : Z }.                 (* chisq, everything else *)
Definition orow := (row * option zrow)%type.

(** One line of the master table with the files it points to.  [ezfile = None]: no zred file. *)
Record entry := mkE { ehpix : Z; engals : nat; erows : list row; ezfile : option (list zrow) }.

(** healpix:  [up] maps a table pixel to the pixel of resolution nside containing its centre (501-502);
    [bpix] are the table-resolution pixels within the border of the requested pixel (512-517);
    [cutpix] the resolution-512 pixels inside the requested pixel or its border (218-229, unique);
    [pix512] the resolution-512 pixel of a position. *)
Record geo := mkGeo { up : Z -> Z; bpix : list Z; cutpix : list Z; pix512 : Z -> Z; npix_of : Z }.

Record args := mkA {
  a_nside : nat; a_hpix : list Z; a_border : Q; a_zred : bool;
  a_temp : bool; a_magrange : Q * Q; a_chimax : Q }.

Definition rows_assign {A} (n : nat) (l : list A) : res (list A) :=
  (* numpy  cat[a:a+n] = l : equal length, or broadcast of one element *)
  if Nat.eqb (List.length l) n then Ok l
  else match l with [x] => Ok (repeat x n) | _ => Err ValueError end.

(** galaxy.py:303-327: one pixel. *)
Definition load (usez : bool) (e : entry) : res (list orow) :=
  do r <- rows_assign (engals e) (erows e);
  if usez then
    match ezfile e with
    | None => Err IOError
    | Some z => do z' <- rows_assign (engals e) z; Ok (combine r (map Some z'))
    end
  else Ok (map (fun x => (x, None)) r).
Fixpoint mapM {A B} (f : A -> res B) (l : list A) : res (list B) :=
  match l with [] => Ok [] | x :: t => do y <- f x; do r <- mapM f t; Ok (y :: r) end.

(** np.unique, up to order *)
Definition uniq (l : list Z) : list Z := nodup Z.eq_dec l.

(** galaxy.py:476-521 *)
Definition get_subpixel_indices (g : geo) (tab : list entry) (a : args) : res (list nat) :=
  if Nat.eqb (List.length (a_hpix a)) 0 || Nat.eqb (a_nside a) 0 then Ok (seq 0 (List.length tab))
  else
    do m <- eu_match (a_hpix a) (map (fun e => up g (ehpix e)) tab);
    if Qlt_bool 0 (a_border a) then
      if negb (Nat.eqb (List.length (a_hpix a)) 1) then Err NotImplementedError
      else
        let inh := uniq (map ehpix (np_sel tab (snd m)) ++ bpix g) in
        do m2 <- eu_match inh (map ehpix tab); Ok (snd m2)
    else Ok (snd m).

Definition has_z (e : entry) : bool := match ezfile e with Some _ => true | None => false end.

(** galaxy.py:331-333 *)
Definition cut (a : args) (o : orow) : bool :=
  Qlt_bool (fst (a_magrange a)) (rmag (fst o)) && Qlt_bool (rmag (fst o)) (snd (a_magrange a)) &&
  (if a_zred a then match snd o with Some z => Qlt_bool (zchi z) (a_chimax a) | None => false end else true).

Definition trim (g : geo) (rows : list orow) : res (list orow) :=
  do m <- eu_match (cutpix g) (map (fun o => pix512 g (rpos (fst o))) rows);
  np_take rows (snd m).

(** galaxy.py:121-185: argument checks, for a pixelised master table of resolution [nside_tab] *)
Definition check_args (g : geo) (nside_tab : nat) (a : args) : res unit :=
  if Qlt_bool (a_border a) 0 then Err ValueError
  else if Nat.ltb 0 (a_nside a) && existsb (fun h => (h <? 0)%Z || (npix_of g <=? h)%Z) (a_hpix a)
       then Err NameError                                   (* 141: [hp] is not defined *)
  else if Qlt_bool 0 (a_border a) && negb (Nat.eqb (List.length (a_hpix a)) 0) &&
          negb (Nat.eqb (List.length (a_hpix a)) 1) then Err NotImplementedError
  else if Nat.ltb nside_tab (a_nside a) then Err ValueError
  else Ok tt.

Definition from_galfile (g : geo) (nside_tab : nat) (tab : list entry) (a : args) : res (list orow) :=
  do _ <- check_args g nside_tab a;
  do idx <- get_subpixel_indices g tab a;
  let es := np_sel tab idx in
  do es' <- (if a_zred a then
               let ok := filter has_z es in
               if Nat.eqb (List.length ok) 0 then Err ValueError else Ok ok      (* 208-212 *)
             else Ok es);
  match es' with
  | [] => Err IndexError                                                          (* 235 *)
  | _ =>
    let trimming := Nat.eqb (List.length (a_hpix a)) 1 && Nat.ltb 0 (a_nside a) && Qlt_bool 0 (a_border a) in
    do parts <- mapM (load (a_zred a)) es';
    if a_temp a then
      do kept <- mapM (fun p => let u := filter (cut a) p in
                                match u with
                                | [] => Ok []                                      (* 335 *)
                                | _ => if trimming then trim g u else Ok u
                                end) parts;
      Ok (List.concat kept)
    else
      let cat := List.concat parts in
      if trimming then trim g cat else Ok cat
  end.
