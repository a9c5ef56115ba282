(** Warnings and log messages, properties C71 and C72 *)
From Verif Require Import PyBase Model_xr Model_input Model_dyn Model_hist Model_histaction Model_fes Model_rec Model_setup Model_main Model_warn
  Spec_rng Spec_input Spec_traj Spec_setup Spec_histact Spec_fes Spec_main Spec_whole Spec_files Spec_warn Proof_files10 Proof_warn2 Proof_warn3 Proof_log.
Open Scope string_scope.
Open Scope Z_scope.
Open Scope list_scope.

(** A finished run that gave no warning: the free energy surface that is written or plotted at step k, and the delta-f values of
    step k, are those of the histogram with all samples until step k.  (If the trajectories have no file, the trajectory write
    stride must be a multiple of the histogram stride, see C05.)  The last ones are those after the end. *)
Theorem C71_current :
  forall e cv secs acts n w0 w, set_up e cv secs acts n w0 -> main e cv (Some (Ok secs)) = Finished w ->
  rng_ok (e_rng e) -> w_ps w0 <> [] ->
  pot_bc (ld_pot (w_ld w0)) = None \/ length (pot_ranges (ld_pot (w_ld w0))) = pot_ndim (ld_pot (w_ld w0)) ->
  forall c ot oh of h0, parse_all cv secs = Ok c -> c_trajectories c = Some ot -> c_histogram c = Some oh -> c_fes c = Some of ->
  w_hist w0 = Some h0 -> w_fes w0 <> None -> setup_warnings w0 = [] ->
  let W := option_or (opt_int ot "write-stride") 100 in let s := option_or (opt_int oh "stride") 1 in
  opt_set ot "filename" = true \/ W mod s = 0 ->
  exists D counts F f, history e w0 n D /\ w_ps w = walkers D n /\
    (forall k, 0 <= k <= n + 1 -> is_fes (ld_kt (w_ld w0)) (counts k) (F k)) /\
    (forall k, 0 < k <= n ->
       acts_at (opt_int of "write-stride") k \/ acts_at (opt_int of "plot-stride") k \/
       (exists od, c_delta_f c = Some od /\ w_df w0 <> None /\ acts_at (opt_int od "stride") k) ->
       data_holds (h_edges (ha_hist h0)) (until s W (walkers D) (repeat 0%R (pot_ndim (ld_pot (w_ld w0)))) (opt_ints oh "reset") k) (counts k)) /\
    w_fes w = Some f /\
    fa_written f = (if opt_set of "filename" then map (fun k => (Some k, F k)) (moments (opt_int of "write-stride") n) ++ [(None, F (n + 1))] else []) /\
    fa_plotted f = (if opt_set of "plot-filename" then map (fun k => (Some k, F k)) (moments (opt_int of "plot-stride") n) ++ [(None, F (n + 1))] else []) /\
    forall od masks r0, c_delta_f c = Some od -> w_df w0 = Some (masks, r0) ->
    exists r, w_df w = Some (masks, r) /\
      let line k j := Fin (IZR k * ld_dt (w_ld w0)) :: differences (ld_kt (w_ld w0)) masks (counts j) in
      rc_file r = if opt_set od "filename"
                  then Some (recorded_file (fun k => line k k) (line n (n + 1)) (e_junk_df e) (opt_int od "stride") (opt_int od "write-stride") n)
                  else None.
Proof. exact outputs_current. Qed.
Print Assumptions C71_current.

Example C71_case : exists c w0 w h0 ot oh of, set_up shaped_env demo_conv current_outputs current_actions 4 w0 /\
  main shaped_env demo_conv (Some (Ok current_outputs)) = Finished w /\ rng_ok (e_rng shaped_env) /\ w_ps w0 <> [] /\ pot_bc (ld_pot (w_ld w0)) = None /\
  parse_all demo_conv current_outputs = Ok c /\ c_trajectories c = Some ot /\ c_histogram c = Some oh /\ c_fes c = Some of /\ w_hist w0 = Some h0 /\ w_fes w0 <> None /\
  setup_warnings w0 = [] /\ opt_set ot "filename" = true /\ acts_at (opt_int of "write-stride") 4 /\ w_df w0 <> None.
Proof. exact current_case. Qed.

(** Every warning is given exactly if at some step the values in question are not up to date: the histogram when a surface is
    calculated, the surface when it is written, plotted or evaluated. *)
Theorem C71_exact :
  forall e cv secs acts n w0 c ot oh of h0, set_up e cv secs acts n w0 ->
  parse_all cv secs = Ok c -> c_trajectories c = Some ot -> c_histogram c = Some oh -> c_fes c = Some of ->
  w_hist w0 = Some h0 -> w_fes w0 <> None ->
  let W := option_or (opt_int ot "write-stride") 100 in
  (In WFesStride (setup_warnings w0) <-> exists k, 0 < k /\ acts_at (opt_int of "stride") k /\ latest (Some W) k <> k) /\
  (In WFesWriteStride (setup_warnings w0) <-> exists k, 0 < k /\ acts_at (opt_int of "write-stride") k /\ latest (opt_int of "stride") k <> k) /\
  (In WFesPlotStride (setup_warnings w0) <-> exists k, 0 < k /\ acts_at (opt_int of "plot-stride") k /\ latest (opt_int of "stride") k <> k) /\
  (In WDeltaFStride (setup_warnings w0) <->
   exists od, c_delta_f c = Some od /\ w_df w0 <> None /\ exists k, 0 < k /\ acts_at (opt_int od "stride") k /\ latest (opt_int of "stride") k <> k).
Proof. exact warnings_exact. Qed.
Print Assumptions C71_exact.

Example C71_case2 : exists c w0 h0 ot oh of, set_up shaped_env demo_conv all_outputs all_actions 4 w0 /\
  parse_all demo_conv all_outputs = Ok c /\ c_trajectories c = Some ot /\ c_histogram c = Some oh /\ c_fes c = Some of /\ w_hist w0 = Some h0 /\ w_fes w0 <> None /\
  In WDeltaFStride (setup_warnings w0).
Proof. exact stale_case. Qed.

(** Full statement: whenever the program ends with exit status 1 the reason is shown.  True for all names of log levels except
    "critical" (in upper or lower case). *)
Theorem C72_explained_partial :
  forall e cv file level, main e cv file = Exit1 -> shows_errors level ->
  exists log, main_log e cv file = Some log /\ In LExit (shown level log).
Proof. exact exit_explained. Qed.
Print Assumptions C72_explained_partial.

Example C72_case : main (demo_env 1%nat 2%nat 3%nat) demo_conv None = Exit1 /\ shows_errors "INFO" /\ shown "INFO" [LExit] = [LExit].
Proof. split; [reflexivity|]. split; [discriminate|reflexivity]. Qed.

Theorem C72_refuted :
  exists e cv file log, main e cv file = Exit1 /\ main_log e cv file = Some log /\ shown "critical" log = [].
Proof. exact exit_silent. Qed.
Print Assumptions C72_refuted.

(** The log of a finished run has no error; the warning about the strides is shown at levels up to warning, every reset of the
    histogram once at levels up to info. *)
Theorem C72_finished :
  forall e cv secs acts n w0 w level, set_up e cv secs acts n w0 -> main e cv (Some (Ok secs)) = Finished w ->
  exists log, main_log e cv (Some (Ok secs)) = Some log /\ ~ In LExit log /\
    (In LFesStride (shown level log) <-> shows_warnings level /\ In WFesStride (setup_warnings w0)) /\
    (forall k, In (LReset k) (shown level log) <-> shows_infos level /\ 1 <= k <= n /\ exists h0, w_hist w0 = Some h0 /\ In k (ha_reset h0)) /\
    NoDup (shown level log).
Proof. exact finished_log. Qed.
Print Assumptions C72_finished.

Example C72_case2 : exists w0 w, set_up shaped_env demo_conv current_outputs current_actions 4 w0 /\ main shaped_env demo_conv (Some (Ok current_outputs)) = Finished w.
Proof. destruct current_case as (c & w0 & w & h0 & ot & oh & of & A & B & _). now exists w0, w. Qed.

(** What is shown of a log at each level; in the order in which it was logged. *)
Theorem C72_levels :
  forall level log, (forall m, In m (shown level log) <->
    In m log /\ match m with LExit => shows_errors level | LFesStride => shows_warnings level | LReset _ => shows_infos level end) /\
    exists P, shown level log = filter P log.
Proof. exact shown_level. Qed.
Print Assumptions C72_levels.

Example C72_case4 : shows_warnings "Warn" /\ ~ shows_infos "Warn" /\ shows_infos "DEBUG" /\ ~ shows_warnings "error".
Proof. split; [|split; [|split]]; cbv; intuition discriminate. Qed.

(** Unknown names are accepted and mean "warning". *)
Theorem C72_unknown :
  forall level log, ~ In (lower level) ["critical"; "error"; "warn"; "warning"; "info"; "debug"] -> shown level log = shown "warning" log.
Proof. exact unknown_level. Qed.
Print Assumptions C72_unknown.

Example C72_case3 : ~ In (lower "Verbose") ["critical"; "error"; "warn"; "warning"; "info"; "debug"].
Proof. cbn. intuition discriminate. Qed.
