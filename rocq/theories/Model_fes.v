(** Model of bdld/actions/fes_action.py (calculation, run, write; the appearance of plots is
    not modelled, only which FES is plotted under which name) *)
From Verif Require Export Model_xr Model_histaction.
Open Scope R_scope.

(** np.log(histo.data, where=(histo.data != 0)) (fes_action.py:199): the positions that are
    masked out keep the uninitialised memory [junk] of the result array *)
Fixpoint masked_log (i : nat) (data : list nat) (junk : nat -> xreal) : list xreal :=
  match data with
  | [] => []
  | c :: cs => (if Nat.eqb c 0 then junk i else xlog (Fin (INR c))) :: masked_log (S i) cs junk
  end.

(** np.where(histo.data == 0, np.inf, -kt * logs) (198-200) *)
Fixpoint where_zero (kt : R) (data : list nat) (logs : list xreal) : list xreal :=
  match data, logs with
  | c :: cs, l :: ls => (if Nat.eqb c 0 then PInf else xscale (- kt) l) :: where_zero kt cs ls
  | _, _ => []
  end.

(** fes_action.py:186-208 calculate_fes; the result is the data of the new grid *)
Definition calculate_fes (data : list nat) (kt : R) (mintozero : bool) (junk : nat -> xreal)
  : res (list xreal) :=
  let fes := where_zero kt data (masked_log 0 data junk) in
  if mintozero then
    do minimum <- xmin fes;                                               (* 202 *)
    if negb (is_pinf minimum)                                             (* 203 *)
    then do m <- xmin fes; Ok (map (fun x => xsub x m) fes)               (* 204 *)
    else Ok fes
  else Ok fes.

(** State of a FesAction (fes_action.py:68-123).  [fa_written], [fa_plotted]: the FES data
    written to / plotted in files, with the step appended to the name. *)
Record fesact := mkFA {
  fa_kt : R; fa_fes : list xreal; fa_stride : option Z;
  fa_filename : bool; fa_wstride : option Z;
  fa_plotname : bool; fa_pstride : option Z;
  fa_written : list (option Z * list xreal);
  fa_plotted : list (option Z * list xreal) }.

(** fes_action.py:32-124 __init__.  [ld_kt] is histo_action.traj_action.ld.kt (69).
    The stride warnings only print; [stride % update_stride] needs update_stride <> 0. *)
Definition fes_init (ld_kt : R) (ha : histact) (stride : option Z) (filename : bool)
    (write_stride plot_stride : option Z) (plot_filename : bool) (junk : nat -> xreal) : res fesact :=
  do fes <- calculate_fes (h_data (ha_hist ha)) ld_kt true junk;          (* 72 *)
  if truthyZ stride && (ha_update ha =? 0)%Z then Err ZeroDivisionError   (* 75 *)
  else if truthyZ write_stride && negb (truthyZ stride) then Err ValueError (* 95-97 *)
  else if truthyZ write_stride && negb filename then Err ValueError       (* 100-102 *)
  else if truthyZ plot_stride && negb (truthyZ stride) then Err ValueError (* 113-115 *)
  else if truthyZ plot_stride && negb plot_filename then Err ValueError   (* 118-120 *)
  else Ok (mkFA ld_kt fes stride filename write_stride plot_filename plot_stride [] []).

(** [o and step % o == 0] for an optional stride *)
Definition stride_hit (o : option Z) (step : Z) : bool :=
  match o with Some s => negb (s =? 0)%Z && (step mod s =? 0)%Z | None => false end.

Definition fa_set_fes (fa : fesact) (f : list xreal) : fesact :=
  mkFA (fa_kt fa) f (fa_stride fa) (fa_filename fa) (fa_wstride fa) (fa_plotname fa) (fa_pstride fa)
       (fa_written fa) (fa_plotted fa).

(** fes_action.py:144-159 write *)
Definition fa_write (fa : fesact) (step : option Z) : fesact :=
  if fa_filename fa then
    mkFA (fa_kt fa) (fa_fes fa) (fa_stride fa) (fa_filename fa) (fa_wstride fa) (fa_plotname fa) (fa_pstride fa)
         (fa_written fa ++ [(if truthyZ step then step else None, fa_fes fa)]) (fa_plotted fa)
  else fa.

(** fes_action.py:161-183 plot *)
Definition fa_plot (fa : fesact) (step : option Z) : fesact :=
  if fa_plotname fa then
    mkFA (fa_kt fa) (fa_fes fa) (fa_stride fa) (fa_filename fa) (fa_wstride fa) (fa_plotname fa) (fa_pstride fa)
         (fa_written fa) (fa_plotted fa ++ [(if truthyZ step then step else None, fa_fes fa)])
  else fa.

(** fes_action.py:126-136 run *)
Definition fes_run (ha : histact) (junk : nat -> xreal) (fa : fesact) (step : Z) : res fesact :=
  do fa1 <- (if stride_hit (fa_stride fa) step then                       (* 131-132 *)
               do f <- calculate_fes (h_data (ha_hist ha)) (fa_kt fa) true junk; Ok (fa_set_fes fa f)
             else Ok fa);
  let fa2 := if stride_hit (fa_wstride fa1) step then fa_write fa1 (Some step) else fa1 in  (* 133-134 *)
  Ok (if stride_hit (fa_pstride fa2) step then fa_plot fa2 (Some step) else fa2).           (* 135-136 *)

(** fes_action.py:138-142 final_run *)
Definition fes_final_run (ha : histact) (junk : nat -> xreal) (fa : fesact) (step : Z) : res fesact :=
  do f <- calculate_fes (h_data (ha_hist ha)) (fa_kt fa) true junk;
  Ok (fa_plot (fa_write (fa_set_fes fa f) None) None).
