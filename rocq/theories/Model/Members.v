(** Model of the preparation of the calibration members (calibration/prepmembers.py:31-107). *)
From Coq Require Import QArith Qabs String.
From Verif.Base Require Import Py.
Local Open Scope nat_scope.
Local Open Scope list_scope.

(** the columns of the cluster catalog that are read *)
Record cluster := mk_cluster { c_id : Z; c_lambda : Q; c_scale : Q; c_zinit : Q; c_cgz : Q; c_zl : Q; c_zle : Q }.
(** the columns of the member catalog; [m_phot]: ra, dec, mag, mag_err, refmag, refmag_err, ebv of the row *)
Record member := mk_member { m_id : Z; m_p : Q; m_ti : Q; m_tr : Q; m_pcol : Q; m_r : Q; m_phot : Z }.
(** a row of the file written *)
Record row := mk_row { o_z : Q; o_zl : Q; o_p : Q; o_pcol : Q; o_central : bool; o_phot : Z }.
(** configuration: calib_minlambda, calib_zlambda_clean_nsig, calib_pcut, calib_smooth *)
Record conf := mk_conf { f_minlambda : Q; f_nsig : Q; f_pcut : Q; f_smooth : Q }.

(** prepmembers.py:60-62 *)
Definition use_cluster (f : conf) (z : Q) (c : cluster) : bool :=
  Qlt_bool (f_minlambda f) (c_lambda c / c_scale c) && Qlt_bool 0 (c_scale c) &&
  Qlt_bool (Qabs (z - c_zl c)) (f_nsig f * c_zle c).
(** prepmembers.py:67-68 *)
Definition use_member (f : conf) (m : member) : bool :=
  Qlt_bool (f_pcut f) (m_p m * m_ti m * m_tr m) || Qlt_bool (f_pcut f) (m_pcol m).
(** prepmembers.py:50-55 *)
Definition mode_z (mode : string) (c : cluster) : res Q :=
  if String.eqb mode "z_init" then Ok (c_zinit c) else if String.eqb mode "cg" then Ok (c_cgz c) else Err RuntimeError.
Fixpoint mapr {A B} (f : A -> res B) (l : list A) : res (list B) :=
  match l with [] => Ok [] | x :: t => do y <- f x; do r <- mapr f t; Ok (y :: r) end.

(** prepmembers.py:31-107: the rows written; [noise]: the draws of np.random.normal, one per row.
    The mode is checked although the catalog is empty. *)
Definition prepare (f : conf) (mode : string) (cat : list cluster) (mem : list member) (noise : nat -> Q) : res (list row) :=
  do _ <- mode_z mode (mk_cluster 0 0 0 0 0 0 0);
  do cat_z <- mapr (mode_z mode) cat;
  let use := np_where (fun zc => use_cluster f (fst zc) (snd zc)) (combine cat_z cat) in
  do cat' <- np_take cat use;
  do z' <- np_take cat_z use;
  do mem' <- np_take mem (np_where (use_member f) mem);
  do ab <- eu_match (map c_id cat') (map m_id mem');
  do mb <- np_take mem' (snd ab);
  do za <- np_take z' (fst ab);
  do zl <- np_take (map c_zl cat') (fst ab);
  Ok (map (fun k => let m := nth k mb (mk_member 0 0 0 0 0 0 0) in
        mk_row (if Qlt_bool 0 (f_smooth f) then nth k za 0 + f_smooth f * noise k else nth k za 0)%Q
               (nth k zl 0%Q) (m_p m) (m_pcol m) (Qlt_bool (m_r m) (1 # 10000)) (m_phot m))
      (seq 0 (length mb))).
