(** The options of the input file determine the simulation, properties C79 and C80 *)
From Verif Require Import PyBase Model_xr Model_input Spec_input Spec_rng Model_dyn Model_pot Model_bd Model_setup Model_main Spec_main
  Model_traj Model_histaction Model_fes Model_rec Model_hist Model_pdist Spec_files Spec_hist Spec_params Proof_files10 Proof_params Proof_params5.
Open Scope string_scope.
Open Scope Z_scope.

(** Time step, number of steps, thermostat and seed of the dynamics are those of the section [ld]. *)
Theorem C79_dynamics :
  forall e cv secs acts n w, percent_free secs -> set_up e cv secs acts n w ->
  dynamics_given cv secs n (w_ld w) /\ seeded cv secs "ld" (e_rng e) (e_os_ld e) (w_rng w).
Proof. exact dynamics_from_input. Qed.
Print Assumptions C79_dynamics.

(** The energy surface, its ranges and its boundary condition are those of the section [potential]; the forces fit. *)
Theorem C79_potential :
  forall e cv secs acts n w, percent_free secs -> set_up e cv secs acts n w ->
  potential_given cv secs (e_coeff_file e) (ld_pot (w_ld w)).
Proof. exact potential_from_input. Qed.
Print Assumptions C79_potential.

(** Number, mass and positions of the walkers are those of the section [particles]. *)
Theorem C79_walkers :
  forall e cv secs acts n w, percent_free secs -> set_up e cv secs acts n w -> rng_ok (e_rng e) ->
  walkers_given cv secs (e_rng e) (e_os_init e) (w_ld w) (w_ps w).
Proof. exact walkers_from_input. Qed.
Print Assumptions C79_walkers.

(** The parameters of the birth-death moves are those of the section [birth-death]; the temperature and the time step are those of the dynamics. *)
Theorem C79_birth_death :
  forall e cv secs acts n w, percent_free secs -> set_up e cv secs acts n w ->
  forall par g st rep, w_bd w = Some (par, g, st, rep) ->
  birth_death_given cv secs (e_rng e) (e_os_bd e) (w_ld w) par g /\ st = stats0 /\ rep = [].
Proof. exact birth_death_from_input. Qed.
Print Assumptions C79_birth_death.

(** The bins, states and strides of the outputs are those of their sections. *)
Theorem C79_outputs :
  forall e cv secs acts n w, percent_free secs -> set_up e cv secs acts n w ->
  (forall t, w_traj w = Some t -> trajectory_output cv secs t) /\
  (forall h, w_hist w = Some h -> bins_given cv secs (pot_ndim (ld_pot (w_ld w))) (h_edges (ha_hist h)) /\ histogram_output cv secs h) /\
  (forall f, w_fes w = Some f -> fes_output cv secs f /\ fa_kt f = ld_kt (w_ld w)) /\
  (forall masks r, w_df w = Some (masks, r) -> recorder_output cv secs "delta-f" r /\
     exists states h, states_in_input cv secs "delta-f" states /\ w_hist w = Some h /\
       pos_inside_ranges (length (h_edges (ha_hist h))) (hist_points (ha_hist h)) states = Ok masks) /\
  (forall states r, w_pd w = Some (states, r) -> recorder_output cv secs "particle-distribution" r /\
     states_in_input cv secs "particle-distribution" states).
Proof. exact outputs_from_input. Qed.
Print Assumptions C79_outputs.

(** one dimension with all outputs; two dimensions with birth-death moves *)
Example C79_case_line : exists w, set_up shaped_env demo_conv all_outputs all_actions 4 w /\ percent_free all_outputs /\ rng_ok (e_rng shaped_env) /\
  w_traj w <> None /\ w_hist w <> None /\ w_fes w <> None /\ w_df w <> None /\ w_pd w <> None.
Proof. exact line_case. Qed.
Example C79_case_plane : exists w par g, set_up shaped_env demo_conv plane_input [ALd; ABirthDeath; ATrajectories] 4 w /\ percent_free plane_input /\
  w_bd w = Some (par, g, stats0, []) /\ length (w_ps w) = 4%nat /\ bd_bw par = [0.1; 1]%R /\ bd_rate par = 2%R /\ bd_recalc par = true /\
  pot_bc (ld_pot (w_ld w)) = Some Reflective.
Proof. exact plane_case. Qed.

(** Every option of an accepted input has the value its text stands for, or its documented default if it is not given. *)
Theorem C80_values :
  forall cv secs, percent_free secs -> forall c, parse_all cv secs = Ok c ->
  forall name key t, has_section secs name = true -> option_of cv secs name key t -> in_sequence secs name key ->
  stated cv secs name key t (option_value c name key).
Proof. exact option_values. Qed.
Print Assumptions C80_values.

(** An input without one of the required options is not accepted. *)
Theorem C80_required :
  forall cv secs, percent_free secs -> forall c, parse_all cv secs = Ok c ->
  forall name key, required cv secs name key -> exists text, given secs name key text.
Proof. exact required_given. Qed.
Print Assumptions C80_required.

Example C80_case : exists c, percent_free plane_input /\ parse_all demo_conv plane_input = Ok c /\
  option_value c "particles" "pos2" = VFloats [Fin 1; Fin 2] /\ in_sequence plane_input "particles" "pos2" /\
  option_of demo_conv plane_input "particles" "pos2" KFloats /\
  option_value c "birth-death" "recalculate-probabilities" = VBool true /\
  option_value c "trajectories" "write-stride" = VNone /\ option_value c "particles" "mass" = VFloat (Fin 2) /\
  required demo_conv plane_input "ld" "friction".
Proof. exact values_case. Qed.
