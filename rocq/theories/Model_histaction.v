(** Model of bdld/actions/histogram_action.py *)
From Verif Require Export Model_traj Model_hist.
Open Scope R_scope.

(** State of a HistogramAction (histogram_action.py:74-97).  [ha_written] are the data arrays
    written so far with the step appended to the filename (None: no step appended), oldest
    first; number formatting is not modelled, headers and backups are in Model_files.v. *)
Record histact := mkHA {
  ha_hist : hist; ha_stride : Z; ha_reset : list Z; ha_wstride : option Z;
  ha_filename : bool; ha_update : Z; ha_written : list (option Z * list nat) }.

(** histogram_action.py:26-98 __init__; [n_dim] is the last dimension of the trajectory array *)
Definition ha_init (t : traj) (n_dim : nat) (n_bins : list nat) (ranges : list (R * R))
    (stride : option Z) (reset : option (list Z)) (filename : bool) (write_stride : option Z)
    : res histact :=
  if negb (Nat.eqb n_dim (length n_bins)) then Err ValueError                       (* 62-67 *)
  else if negb (Nat.eqb n_dim (length ranges)) then Err ValueError                  (* 68-73 *)
  else
    do h <- hist_init n_bins ranges;                                                (* 75 *)
    if truthyZ write_stride && negb filename then Err ValueError                    (* 90-93 *)
    else Ok (mkHA h (orZ stride 1)                                                  (* 76 *)
                  (match reset with Some l => l | None => [] end)                   (* 78 *)
                  write_stride filename                                             (* 79, 81 *)
                  (tr_wstride t)                                                    (* 97 *)
                  []).

(** histogram_action.py:126-143 get_traj_data *)
Definition get_traj_data (t : traj) (ha : histact) (step : Z) : res (list (list vec)) :=
  let last_write := if negb (tr_last_write t =? step)%Z then tr_last_write t
                    else (tr_last_write t - tr_wstride t)%Z in                      (* 132-136 *)
  get_valid_data (tr_pos t) step (ha_stride ha) 1 last_write.                       (* 137-143 *)

Definition ha_set_hist (ha : histact) (h : hist) : histact :=
  mkHA h (ha_stride ha) (ha_reset ha) (ha_wstride ha) (ha_filename ha) (ha_update ha) (ha_written ha).

(** histogram_action.py:145-160 write; [if step] is false for None and 0 *)
Definition ha_write (ha : histact) (step : option Z) : histact :=
  if ha_filename ha then
    let name := if truthyZ step then step else None in                              (* 155-158 *)
    mkHA (ha_hist ha) (ha_stride ha) (ha_reset ha) (ha_wstride ha) (ha_filename ha) (ha_update ha)
         (ha_written ha ++ [(name, h_data (ha_hist ha))])                           (* 160 *)
  else ha.

(** the reshape of line 108 and 122: all walkers of all times, one after another *)
Definition flatten_frames (d : list (list vec)) : list vec := concat d.

(** histogram_action.py:100-113 run *)
Definition ha_run (t : traj) (ha : histact) (step : Z) : res histact :=
  if (ha_update ha =? 0)%Z then Err ZeroDivisionError else
  do ha1 <- (if (step mod ha_update ha =? 0)%Z then                                 (* 105 *)
               do data <- get_traj_data t ha step;                                  (* 106 *)
               do h <- hist_add (ha_hist ha) (flatten_frames data);                 (* 108 *)
               Ok (ha_set_hist ha h)
             else Ok ha);
  let ha2 := match ha_wstride ha1 with                                              (* 109-110 *)
             | Some ws => if negb (ws =? 0)%Z && (step mod ws =? 0)%Z then ha_write ha1 (Some step) else ha1
             | None => ha1
             end in
  Ok (if existsb (Z.eqb step) (ha_reset ha2)                                        (* 111-113 *)
      then ha_set_hist ha2 (hist_clear (ha_hist ha2)) else ha2).

(** histogram_action.py:115-124 final_run *)
Definition ha_final_run (t : traj) (ha : histact) (step : Z) : res histact :=
  do data <- get_traj_data t ha step;                                               (* 120 *)
  do h <- hist_add (ha_hist ha) (flatten_frames data);                              (* 122 *)
  let ha1 := ha_set_hist ha h in
  Ok (if ha_filename ha then ha_write ha1 None else ha1).                           (* 123-124 *)
