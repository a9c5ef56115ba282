(** Reproducible runs, property C52 *)
From Verif Require Import PyBase Model_xr Model_input Model_dyn Model_setup Model_main Spec_input Spec_rng Spec_main Spec_whole Spec_repro Proof_repro Proof_repro3.
Open Scope string_scope.
Open Scope Z_scope.
Open Scope list_scope.

(** With seeds for all generators the run does not depend on the entropy of the operating system,
    if the seed of the birth-death is not 0. *)
Theorem C52_entropy_partial :
  forall e ld init bd cv file,
  (forall secs c, file = Some (Ok secs) -> parse_all cv secs = Ok c -> seeded c /\ bd_seed_not_zero c) ->
  main (with_entropy e ld init bd) cv file = main e cv file.
Proof. exact ent_main. Qed.
Print Assumptions C52_entropy_partial.

(** The birth-death seed 0 counts as no seed: two runs of the same input end with different walkers. *)
Theorem C52_refuted :
  exists e cv secs c bd w w', rng_ok (e_rng e) /\ parse_all cv secs = Ok c /\ seeded c /\
    main e cv (Some (Ok secs)) = Finished w /\
    main (with_entropy e (e_os_ld e) (e_os_init e) bd) cv (Some (Ok secs)) = Finished w' /\
    w_ps w <> w_ps w'.
Proof. exact entropy_differs. Qed.
Print Assumptions C52_refuted.

(** Finished runs that differ in the contents of uninitialised memory have the same results.  The files
    of delta-f and particle-distribution agree as well, unless the run is shorter than their stride. *)
Theorem C52_memory_partial :
  forall e times pos mom fes df df1 pd pd1 cv secs n c w w',
  parse_all cv secs = Ok c -> assoc "n_steps" (c_ld c) = Some (VInt n) ->
  main e cv (Some (Ok secs)) = Finished w ->
  main (with_memory e times pos mom fes df df1 pd pd1) cv (Some (Ok secs)) = Finished w' ->
  rng_ok (e_rng e) -> w_ps w <> [] ->
  pot_bc (ld_pot (w_ld w)) = None \/ length (pot_ranges (ld_pot (w_ld w))) = pot_ndim (ld_pot (w_ld w)) ->
  same_results w w' /\
  (~ too_short (c_delta_f c) n -> recorded (w_df w) = recorded (w_df w')) /\
  (~ too_short (c_particle_distribution c) n -> recorded (w_pd w) = recorded (w_pd w')).
Proof. exact memory_same. Qed.
Print Assumptions C52_memory_partial.

(** A run shorter than the stride writes uninitialised rows: two runs write different files. *)
Theorem C52_memory_refuted :
  exists e times pos mom fes df df1 pd pd1 cv secs c w w',
  rng_ok (e_rng e) /\ parse_all cv secs = Ok c /\ seeded c /\
  main e cv (Some (Ok secs)) = Finished w /\
  main (with_memory e times pos mom fes df df1 pd pd1) cv (Some (Ok secs)) = Finished w' /\
  recorded (w_pd w) <> recorded (w_pd w').
Proof. exact memory_differs. Qed.
Print Assumptions C52_memory_refuted.

Example C52_entropy_case : exists c,
  parse_all demo_conv (demo1 [("birth-death", demo1_bd [("seed", "4")])]) = Ok c /\ seeded c /\ bd_seed_not_zero c /\
  c_birth_death c <> None.
Proof. exact entropy_case. Qed.
Example C52_memory_case : exists c w w',
  parse_all demo_conv running = Ok c /\ assoc "n_steps" (c_ld c) = Some (VInt 4) /\
  main (demo_env 1 2 3) demo_conv (Some (Ok running)) = Finished w /\
  main (other_memory (demo_env 1 2 3)) demo_conv (Some (Ok running)) = Finished w' /\
  w_ps w <> [] /\ pot_bc (ld_pot (w_ld w)) = None /\ w_traj w <> None /\ w_bd w <> None.
Proof. exact memory_case. Qed.
