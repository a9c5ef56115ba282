(** The complete program, property C56 *)
From Verif Require Import PyBase Model_xr Model_input Model_dyn Model_bd Model_traj Model_hist Model_histaction Model_fes Model_deltaf Model_pdist Model_rec
  Model_setup Model_main Spec_rng Spec_input Spec_times Spec_traj Spec_hist Spec_histact Spec_setup Spec_fes Spec_pdist Spec_ld Spec_main Spec_whole Spec_files
  Proof_whole Proof_whole4 Proof_whole5 Proof_whole6 Proof_whole7 Proof_files10.
Open Scope string_scope.
Open Scope Z_scope.
Open Scope list_scope.

(** The program finishes in the state w exactly if w is the composition of the separate parts: the
    alternation of Langevin update and birth-death step, and every output action alone on the
    resulting history of the walkers (no action disturbs another one). *)
Theorem C56_composition :
  forall e cv secs acts n w0, set_up e cv secs acts n w0 ->
  forall w, main e cv (Some (Ok secs)) = Finished w <-> composed e n w0 w.
Proof. exact main_composed. Qed.
Print Assumptions C56_composition.

(** Full statement: this holds for all accepted inputs.  It is false (see below), and proved for runs
    that satisfy [runnable].  The run finishes, the walkers follow the history, none is lost. *)
Theorem C56_completes_partial :
  forall e cv secs acts n w0, set_up e cv secs acts n w0 -> runnable e w0 ->
  exists w D, main e cv (Some (Ok secs)) = Finished w /\ history e w0 n D /\ w_ps w = walkers D n /\
    forall k, length (walkers D k) = length (w_ps w0) /\
              Forall (right_size (pot_ndim (ld_pot (w_ld w0)))) (walkers D k).
Proof. exact main_total. Qed.
Print Assumptions C56_completes_partial.

(** the trajectory files of any finished run: all multiples of the stride, one file for each walker *)
Theorem C56_trajectories :
  forall e cv secs acts n w0 w, set_up e cv secs acts n w0 -> main e cv (Some (Ok secs)) = Finished w ->
  rng_ok (e_rng e) -> w_ps w0 <> [] ->
  forall c o, parse_all cv secs = Ok c -> c_trajectories c = Some o -> w_traj w0 <> None ->
  exists D t, history e w0 n D /\ w_ps w = walkers D n /\ (forall k, length (walkers D k) = length (w_ps w0)) /\
    w_traj w = Some t /\
    tr_files t = if opt_set o "filename"
                 then Some (traj_files (ld_dt (w_ld w0)) (opt_set o "momentum") (walkers D)
                              (option_or (opt_int o "stride") 1) n (length (w_ps w0)))
                 else None.
Proof. exact finished_trajectories. Qed.
Print Assumptions C56_trajectories.

(** the histogram and its files (see C05 and C06 for [content] and [final_batch]) *)
Theorem C56_histogram :
  forall e cv secs acts n w0 w, set_up e cv secs acts n w0 -> main e cv (Some (Ok secs)) = Finished w ->
  rng_ok (e_rng e) -> w_ps w0 <> [] ->
  pot_bc (ld_pot (w_ld w0)) = None \/ length (pot_ranges (ld_pot (w_ld w0))) = pot_ndim (ld_pot (w_ld w0)) ->
  forall c ot oh h0, parse_all cv secs = Ok c -> c_trajectories c = Some ot -> c_histogram c = Some oh ->
  w_hist w0 = Some h0 ->
  exists D h, history e w0 n D /\ w_ps w = walkers D n /\ w_hist w = Some h /\
    let fn := opt_set ot "filename" in
    let W := option_or (opt_int ot "write-stride") 100 in
    let s := option_or (opt_int oh "stride") 1 in
    let resets := opt_ints oh "reset" in
    let origin := repeat 0%R (pot_ndim (ld_pot (w_ld w0))) in
    let edges := h_edges (ha_hist h0) in
    h_edges (ha_hist h) = edges /\
    data_holds edges (content fn W s (walkers D) origin resets n n ++ sampled (walkers D) (final_batch fn W s n))
               (h_data (ha_hist h)) /\
    exists files, written_ok fn W s (walkers D) origin resets (opt_int oh "write-stride") edges n files /\
      ha_written h = files ++ (if opt_set oh "filename" then [(None, h_data (ha_hist h))] else []).
Proof. exact finished_histogram. Qed.
Print Assumptions C56_histogram.

(** the free energy surface is the one of the final histogram (see C10), at the temperature of the dynamics *)
Theorem C56_fes :
  forall e cv secs acts n w0 w, set_up e cv secs acts n w0 -> main e cv (Some (Ok secs)) = Finished w ->
  w_fes w0 <> None ->
  exists h f, w_hist w = Some h /\ w_fes w = Some f /\
    forall junk, calculate_fes (h_data (ha_hist h)) (ld_kt (w_ld w0)) true junk = Ok (fa_fes f).
Proof. exact finished_fes. Qed.
Print Assumptions C56_fes.

(** all free energy surfaces of a run and the rows of the delta-f file: F k is the surface (see C10) of the histogram after step k,
    the surface at step k is the one of the latest multiple of the stride *)
Theorem C56_surfaces :
  forall e cv secs acts n w0 w, set_up e cv secs acts n w0 -> main e cv (Some (Ok secs)) = Finished w ->
  rng_ok (e_rng e) -> w_ps w0 <> [] ->
  pot_bc (ld_pot (w_ld w0)) = None \/ length (pot_ranges (ld_pot (w_ld w0))) = pot_ndim (ld_pot (w_ld w0)) ->
  forall c ot oh of h0, parse_all cv secs = Ok c -> c_trajectories c = Some ot -> c_histogram c = Some oh -> c_fes c = Some of ->
  w_hist w0 = Some h0 -> w_fes w0 <> None ->
  exists D counts h f F, history e w0 n D /\ w_ps w = walkers D n /\ counted e w0 n ot oh (h_edges (ha_hist h0)) D counts /\
    w_hist w = Some h /\ h_data (ha_hist h) = counts (n + 1) /\
    (forall k, 0 <= k <= n + 1 -> forall j, calculate_fes (counts k) (ld_kt (w_ld w0)) true j = Ok (F k)) /\
    (forall k, 0 <= k <= n + 1 -> is_fes (ld_kt (w_ld w0)) (counts k) (F k)) /\
    w_fes w = Some f /\ fa_fes f = F (n + 1) /\
    let surface k := (Some k, F (latest (opt_int of "stride") k)) in
    fa_written f = (if opt_set of "filename" then map surface (moments (opt_int of "write-stride") n) ++ [(None, F (n + 1))] else []) /\
    fa_plotted f = (if opt_set of "plot-filename" then map surface (moments (opt_int of "plot-stride") n) ++ [(None, F (n + 1))] else []) /\
    forall od masks r0, c_delta_f c = Some od -> w_df w0 = Some (masks, r0) ->
    exists r, w_df w = Some (masks, r) /\
      let line k j := Fin (IZR k * ld_dt (w_ld w0)) :: differences (ld_kt (w_ld w0)) masks (counts j) in
      rc_file r = if opt_set od "filename"
                  then Some (recorded_file (fun k => line k (latest (opt_int of "stride") k)) (line n (n + 1)) (e_junk_df e)
                               (opt_int od "stride") (opt_int od "write-stride") n)
                  else None.
Proof. exact finished_surfaces. Qed.
Print Assumptions C56_surfaces.

(** the rows of the particle-distribution file (see C12) *)
Theorem C56_distribution :
  forall e cv secs acts n w0 w, set_up e cv secs acts n w0 -> main e cv (Some (Ok secs)) = Finished w ->
  rng_ok (e_rng e) -> w_ps w0 <> [] ->
  pot_bc (ld_pot (w_ld w0)) = None \/ length (pot_ranges (ld_pot (w_ld w0))) = pot_ndim (ld_pot (w_ld w0)) ->
  forall c o states r0, parse_all cv secs = Ok c -> c_particle_distribution c = Some o -> w_pd w0 = Some (states, r0) ->
  Forall (fun st => length st = pot_ndim (ld_pot (w_ld w0))) states ->
  exists D r rows, history e w0 n D /\ w_ps w = walkers D n /\ w_pd w = Some (states, r) /\
    (forall k, pdist_row_spec states (walkers D k) k (rows k)) /\
    rc_file r = if opt_set o "filename"
                then Some (recorded_file rows (rows n) (e_junk_pd e) (opt_int o "stride") (opt_int o "write-stride") n)
                else None.
Proof. exact finished_distribution. Qed.
Print Assumptions C56_distribution.

Example C56_outputs_case : exists w0, set_up shaped_env demo_conv all_outputs all_actions 4 w0 /\ runnable shaped_env w0 /\ array_shapes shaped_env w0 /\
  pot_ndim (ld_pot (w_ld w0)) = 1%nat /\ length (w_ps w0) = 4%nat /\ pot_bc (ld_pot (w_ld w0)) = None /\ w_bd w0 = None /\ w_traj w0 <> None /\
  w_hist w0 <> None /\ w_fes w0 <> None /\ (exists m1 m2 r, w_df w0 = Some ([m1; m2], r)) /\ exists a r, w_pd w0 = Some ([[a]], r).
Proof. exact all_outputs_case. Qed.

(** Accepted and set up, with a proper generator and four walkers, but the run ends in a traceback:
    states of the particle-distribution have as many dimensions as n_dim says, but a Mueller-Brown
    potential always has two. *)
Theorem C56_refuted :
  exists e cv secs acts n w0, set_up e cv secs acts n w0 /\ rng_ok (e_rng e) /\ length (w_ps w0) = 4%nat /\
    main e cv (Some (Ok secs)) = Traceback IndexError.
Proof. exact accepted_fails. Qed.
Print Assumptions C56_refuted.

Example C56_case : exists w0,
  set_up (demo_env 1 2 3) demo_conv running [ALd; ABirthDeath; ATrajectories] 4 w0 /\
  runnable (demo_env 1 2 3) w0 /\ length (w_ps w0) = 4%nat /\ w_bd w0 <> None /\ w_traj w0 <> None.
Proof. exact running_case. Qed.
