(** The buffered recording shared (textually) by
    bdld/actions/delta_f_action.py (DeltaFAction) and
    bdld/actions/particle_distribution.py (ParticleDistributionAction).
    The rows are the numbers of one line of the file; their type [A] and the computed row
    are parameters here, the two actions are instances (Model_deltaf.v, Model_pdist.v). *)
From Verif Require Export Model_valid.

(** attributes: stride, write_stride, the 2-d array (delta_f / counts) if a stride is set,
    the single row array otherwise, last_write, rows of the file ([None]: no filename) *)
Record recorder (A : Type) := mkRec {
  rc_stride : Z; rc_wstride : Z;
  rc_rows : list A; rc_single : A;
  rc_last : Z; rc_file : option (list A) }.
Arguments mkRec {A}. Arguments rc_stride {A}. Arguments rc_wstride {A}. Arguments rc_rows {A}.
Arguments rc_single {A}. Arguments rc_last {A}. Arguments rc_file {A}.

(** delta_f_action.py:52-68,78-79; particle_distribution.py:48-65,68-69.
    [junk n] are the n uninitialised rows of np.empty, [single0] the single one. *)
Definition rec_init {A} (stride write_stride : option Z) (filename : bool)
    (junk : nat -> list A) (single0 : A) : res (recorder A) :=
  let file := if filename then Some [] else None in
  let s := orZ stride 0 in
  if negb (s =? 0) then
    if truthyZ write_stride && negb filename then Err ValueError
    else
      let W := orZ write_stride (s * 100) in
      if negb (W mod s =? 0) then Err ValueError
      else Ok (mkRec s W (junk (Z.to_nat (W / s))) single0 0 file)
  else Ok (mkRec 0 0 [] single0 0 file).

(** delta_f_action.py:117-139; particle_distribution.py:112-136 *)
Definition rec_write {A} (r : recorder A) (step : Z) : res (recorder A) :=
  match rc_file r with
  | None => Ok r
  | Some file =>
      if negb (rc_stride r =? 0) then
        do save <- get_valid_data (rc_rows r) step (rc_stride r) (rc_stride r) (rc_last r);
        Ok (mkRec (rc_stride r) (rc_wstride r) (rc_rows r) (rc_single r) step
                  (Some (file ++ save)))
      else
        Ok (mkRec (rc_stride r) (rc_wstride r) (rc_rows r) (rc_single r) (rc_last r)
                  (Some (file ++ [rc_single r])))
  end.

(** delta_f_action.py:95-107; particle_distribution.py:84-94.
    [row] is the computation of the new row, only executed if it is stored. *)
Definition rec_run {A} (row : res A) (r : recorder A) (step : Z) : res (recorder A) :=
  do r1 <-
    (if negb (rc_stride r =? 0) && (step mod rc_stride r =? 0) then
       do v <- row;
       do rows' <- py_set (rc_rows r) ((step mod rc_wstride r) / rc_stride r - 1) v;
       Ok (mkRec (rc_stride r) (rc_wstride r) rows' (rc_single r) (rc_last r) (rc_file r))
     else Ok r);
  if negb (rc_wstride r1 =? 0) && (step mod rc_wstride r1 =? 0)
  then rec_write r1 step else Ok r1.

(** delta_f_action.py:109-115; particle_distribution.py:96-100 *)
Definition rec_final_run {A} (row : res A) (r : recorder A) (step : Z) : res (recorder A) :=
  do r1 <-
    (if rc_stride r =? 0 then
       do v <- row;
       Ok (mkRec (rc_stride r) (rc_wstride r) (rc_rows r) v (rc_last r) (rc_file r))
     else Ok r);
  rec_write r1 step.
