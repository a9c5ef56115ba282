(** Sensible inputs run to the end, C88, and the example of the repository, C89 *)
From Verif Require Import PyBase Model_xr Model_input Model_dyn Model_setup Model_main Model_files Model_ini Spec_times Spec_rng Spec_ld Spec_fes Spec_setup Spec_correction Spec_bdrun Spec_input Spec_main Spec_whole
  Spec_hist Spec_histact Spec_files Spec_params Spec_ini Spec_example Spec_complete Spec_examplerun Proof_complete3 Proof_complete5.
Open Scope string_scope.
Open Scope Z_scope.

(** ** C88: an accepted input whose options have sensible values (Spec_complete.v) is run to the end with all its walkers,
    and there is an action with its output for every section *)
Theorem C88_completes :
  forall e cv secs c ranges number, parse_all cv secs = Ok c -> rng_ok (e_rng e) -> sensible e c ranges number ->
  exists w, main e cv (Some (Ok secs)) = Finished w /\ Z.of_nat (length (w_ps w)) = number /\
    Forall (right_size (length ranges)) (w_ps w) /\ objects e c w.
Proof. exact sensible_finishes. Qed.
Print Assumptions C88_completes.

(** the example of the repository; two dimensions with birth-death moves *)
Example C88_case_contracts : rng_ok (e_rng lookup_env) /\ griddata_exact (e_gd lookup_env) /\ griddata_pointwise (e_gd lookup_env).
Proof. exact lookup_contracts. Qed.
Example C88_case_example : forall e, griddata_exact (e_gd e) -> griddata_pointwise (e_gd e) -> sensible e example_config [(-25 / 10, 25 / 10)]%R 10.
Proof. exact example_sensible. Qed.
Example C88_case_plane : exists c, parse_all demo_conv plane_input = Ok c /\ sensible lookup_env c [(-1.5, 1.5); (-0.5, 2.5)]%R 4 /\
  c_birth_death c <> None /\ c_trajectories c <> None.
Proof. exact plane_sensible. Qed.

(** ** C89: the example of the repository, from the text of its input file to the files it leaves.  For all random numbers, all
    uninitialised memory and any former content of the directory it finishes without asking, keeps its ten walkers, and leaves
    exactly the documented files.  The histogram holds all positions of all steps up to the last multiple of 100, one extra count at the
    origin, and at the end the last hundred steps twice (C06). *)
Theorem C89_example :
  forall e fe fs stdin, rng_ok (e_rng e) -> griddata_exact (e_gd e) -> griddata_pointwise (e_gd e) -> writable fe -> In "png" (fe_formats fe) ->
  exists fs' w acts w0 D counts F,
    main_files e fe py_conv (Some (read_text example_text)) fs stdin = (fs', stdin, Finished w) /\
    set_up e py_conv (meaning example_document) acts 10000 w0 /\ history e w0 10000 D /\ w_ps w = walkers D 10000 /\
    (forall k, 0 <= k <= 10000 -> length (walkers D k) = 10%nat /\ Forall (right_size 1) (walkers D k)) /\
    (forall k, 0 <= k <= 10000 -> k mod 100 = 0 ->
       data_holds [example_edges] ([0%R] :: sampled (walkers D) (zrange 1 (k + 1))) (counts k)) /\
    data_holds [example_edges] ([0%R] :: sampled (walkers D) (zrange 1 10001 ++ zrange 9901 10001)) (counts 10001) /\
    (forall k, 0 <= k <= 10001 -> is_fes 1 (counts k) (F k)) /\
    example_output 10000 fe (walkers D) counts F fs' /\
    (forall f content, fs_get fs f = Some content -> ~ In f (example_files 10000) -> fs_get fs' f = Some content).
Proof. exact example_run. Qed.
Print Assumptions C89_example.

Example C89_case : exists e fe, rng_ok (e_rng e) /\ griddata_exact (e_gd e) /\ griddata_pointwise (e_gd e) /\ writable fe /\ In "png" (fe_formats fe).
Proof. exact example_case. Qed.
