(** C44, C45, C51: the complete program *)
From Verif Require Import PyBase Model_xr Model_input Spec_input Spec_rng Model_dyn Model_setup Model_main Spec_main
  Proof_main Proof_main2 Proof_main3.
Open Scope string_scope.
Open Scope Z_scope.

(** ** C44 *)

(** A list with an element that is no number, and a misspelled name of a variant, end in a traceback.
    (A negative seed does as well, and an unknown boundary condition is ignored without any message:
    C44_setup.) *)
Theorem C44_refuted :
  (exists cv secs, percent_free secs /\ dependencies secs /\ bad_value cv secs KFloats /\
     forall e, main e cv (Some (Ok secs)) = Traceback ValueError) /\
  (exists e cv secs, main e cv (Some (Ok secs)) = Traceback TypeError /\
     given secs "birth-death" "approximation-variant" "multiplikative" /\ ~ In "multiplikative" variant_names).
Proof. exact (conj bad_list_traceback bad_variant_traceback). Qed.
Print Assumptions C44_refuted.

(** A value of any single-valued option that cannot be converted gives the error message and exit
    status 1, if there are no bad lists, no '%' and no missing dependencies in the input. *)
Theorem C44_partial :
  forall e cv secs, percent_free secs -> dependencies secs ->
  ~ bad_value cv secs KFloats -> ~ bad_value cv secs KInts ->
  (exists t, ~ list_type t /\ bad_value cv secs t) -> main e cv (Some (Ok secs)) = Exit1.
Proof. exact scalar_values. Qed.
Print Assumptions C44_partial.

(** All ways in which an input without '%' is rejected while it is read *)
Theorem C44_exact :
  forall e cv secs, percent_free secs -> (forall c, parse_all cv secs <> Ok c) ->
  main e cv (Some (Ok secs)) = Exit1 \/
  main e cv (Some (Ok secs)) = Traceback ValueError /\ (bad_value cv secs KFloats \/ bad_value cv secs KInts) \/
  main e cv (Some (Ok secs)) = Traceback NoSectionError /\ ~ dependencies secs.
Proof. exact failing_input. Qed.
Print Assumptions C44_exact.

(** Values that are only looked at during the setup: an unknown approximation variant, a negative
    seed, a bandwidth with the wrong number of entries, an unknown boundary condition *)
Theorem C44_setup :
  (forall e cv secs c w o bw s, parse_all cv secs = Ok c -> setup_dynamics e c = Ok w ->
     c_birth_death c = Some o -> setup_bandwidth o (pot_ndim (ld_pot (w_ld w))) = Ok bw ->
     get_dict o "correction-variant" = VNone -> get_dict o "approximation-variant" = VStr s -> s <> "" -> ~ In s variant_names ->
     main e cv (Some (Ok secs)) = Traceback TypeError) /\
  (forall e cv secs c pot dt s, parse_all cv secs = Ok c -> setup_potential e (c_potential c) = Ok pot ->
     get_dict (c_ld c) "timestep" = VFloat (Fin dt) ->
     (get_dict (c_ld c) "type" = VStr "overdamped" \/
      get_dict (c_ld c) "type" = VStr "bussi-parinello" /\
        exists kt fr, get_dict (c_ld c) "kt" = VFloat (Fin kt) /\ get_dict (c_ld c) "friction" = VFloat (Fin fr)) ->
     get_dict (c_ld c) "seed" = VInt s -> s < 0 -> main e cv (Some (Ok secs)) = Traceback ValueError) /\
  (forall e cv secs c w o bw, parse_all cv secs = Ok c -> setup_dynamics e c = Ok w ->
     c_birth_death c = Some o -> pot_ndim (ld_pot (w_ld w)) <> 1%nat -> get_dict o "kernel-bandwidth" = VFloats (map Fin bw) ->
     length bw <> pot_ndim (ld_pot (w_ld w)) -> main e cv (Some (Ok secs)) = Exit1) /\
  (forall e o, get_dict o "boundary-condition" <> VStr "reflective" -> get_dict o "boundary-condition" <> VStr "periodic" ->
     boundary_condition o = None /\ forall pot, setup_potential e o = Ok pot -> pot_bc pot = None).
Proof. exact (conj unknown_variant (conj negative_seed (conj wrong_bandwidth unknown_boundary))). Qed.
Print Assumptions C44_setup.

Example C44_case : forall e,
  percent_free (demo1 [("trajectories", [("stride", "many")])]) /\ dependencies (demo1 [("trajectories", [("stride", "many")])]) /\
  bad_value demo_conv (demo1 [("trajectories", [("stride", "many")])]) KInt /\
  main e demo_conv (Some (Ok (demo1 [("trajectories", [("stride", "many")])]))) = Exit1.
Proof. exact bad_scalar_exit. Qed.

(** ** C45 *)

(** [fes] without [histogram] ends in a traceback *)
Theorem C45_refuted :
  forall e, main e demo_conv (Some (Ok (demo1 [("trajectories", []); ("fes", [("kt", "1")])]))) = Traceback NoSectionError.
Proof. exact missing_histogram. Qed.
Print Assumptions C45_refuted.

(** [histogram] without [trajectories] gives the message and exit status 1; with any missing
    dependency the program never finishes. *)
Theorem C45_partial :
  (forall e cv secs c w, parse_all cv secs = Ok c -> setup_dynamics e c = Ok w ->
     (forall o, c_birth_death c = Some o -> exists b, setup_birth_death e o (w_ld w) = Ok b) ->
     has_section secs "histogram" = true -> has_section secs "trajectories" = false ->
     main e cv (Some (Ok secs)) = Exit1) /\
  (forall e cv secs w, main e cv (Some (Ok secs)) = Finished w ->
     dependencies secs /\ (has_section secs "histogram" = true -> has_section secs "trajectories" = true)).
Proof. exact (conj histogram_without_trajectories never_without_dependency). Qed.
Print Assumptions C45_partial.

(** The other two dependencies: if the sections read before are fine, there is a traceback. *)
Theorem C45_exact :
  (forall e cv secs s_ld s_pot s_part ld pot part bd traj,
     assoc "ld" secs = Some s_ld -> assoc "potential" secs = Some s_pot -> assoc "particles" secs = Some s_part ->
     parse_ld cv s_ld = Ok ld -> parse_potential cv s_pot = Ok pot -> parse_particles cv s_part = Ok part ->
     optional_section secs "birth-death" (parse_birth_death cv pot) = Ok bd ->
     optional_section secs "trajectories" (parse_trajectories cv) = Ok traj ->
     has_section secs "histogram" = false -> has_section secs "fes" = true ->
     main e cv (Some (Ok secs)) = Traceback NoSectionError) /\
  (forall e cv secs s_ld s_pot s_part ld pot part bd traj hist,
     assoc "ld" secs = Some s_ld -> assoc "potential" secs = Some s_pot -> assoc "particles" secs = Some s_part ->
     parse_ld cv s_ld = Ok ld -> parse_potential cv s_pot = Ok pot -> parse_particles cv s_part = Ok part ->
     optional_section secs "birth-death" (parse_birth_death cv pot) = Ok bd ->
     optional_section secs "trajectories" (parse_trajectories cv) = Ok traj ->
     optional_section secs "histogram" (parse_histogram cv pot) = Ok hist ->
     has_section secs "fes" = false -> has_section secs "delta-f" = true ->
     main e cv (Some (Ok secs)) = Traceback NoSectionError).
Proof. exact (conj fes_without_histogram delta_f_without_fes). Qed.
Print Assumptions C45_exact.

Example C45_case :
  main (demo_env 1 2 3) demo_conv (Some (Ok (demo1 [("histogram", [("min", "-2"); ("max", "2"); ("bins", "100")])]))) = Exit1.
Proof. exact missing_trajectories. Qed.

(** ** C51 *)

(** After the setup the program makes exactly the calls run(1) of all configured actions, ..., run(n),
    final_run(n), each in the documented order, and ends with the state or the exception of that
    sequence; a program that finishes got there in this way. *)
Theorem C51_call_sequence :
  (forall e cv secs acts n w, set_up e cv secs acts n w ->
     acts = configured secs /\
     main e cv (Some (Ok secs)) = match perform e (calls acts n) w with Ok w' => Finished w' | Err x => uncaught x end) /\
  (forall e cv file w, main e cv file = Finished w ->
     exists secs acts n w0, file = Some (Ok secs) /\ set_up e cv secs acts n w0 /\ 0 < n /\ perform e (calls acts n) w0 = Ok w).
Proof. exact (conj main_of_setup finished_set_up). Qed.
Print Assumptions C51_call_sequence.

(** These calls are each made once, and there are no others. *)
Theorem C51_once :
  forall secs n,
  (forall a k, In (Run a k) (calls (configured secs) n) <-> In a (configured secs) /\ 1 <= k <= n) /\
  (forall a k, In (Final a k) (calls (configured secs) n) <-> In a (configured secs) /\ k = n) /\
  forall c, (count_occ call_dec (calls (configured secs) n) c <= 1)%nat.
Proof. exact each_call_once. Qed.
Print Assumptions C51_once.

(** Only the dynamics and the birth-death action change the walkers, and every action only changes
    its own state. *)
Theorem C51_frame :
  (forall e a k w w', run_action e a k w = Ok w' -> frame a w w') /\
  (forall e a k w w', final_run_action e a k w = Ok w' -> frame a w w' /\ w_ps w' = w_ps w /\ w_rng w' = w_rng w).
Proof. exact (conj run_frame final_frame). Qed.
Print Assumptions C51_frame.

Example C51_case :
  calls (configured (demo1 [("fes", []); ("histogram", []); ("trajectories", [])])) 2 =
  [Run ALd 1; Run ATrajectories 1; Run AHistogram 1; Run AFes 1; Run ALd 2; Run ATrajectories 2; Run AHistogram 2; Run AFes 2;
   Final ALd 2; Final ATrajectories 2; Final AHistogram 2; Final AFes 2].
Proof. reflexivity. Qed.
