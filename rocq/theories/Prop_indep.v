(** Independence of outputs and of the length of a run, properties C67 and C68 *)
From Verif Require Import PyBase Model_xr Model_input Model_dyn Model_traj Model_setup Model_main Spec_input Spec_rng Spec_main Spec_whole Spec_files Spec_indep
  Proof_indep Proof_indep2.
Open Scope string_scope.
Open Scope Z_scope.
Open Scope list_scope.

(** Two finished runs of inputs with the same [ld], [potential], [particles] and [birth-death] sections end with the same walkers,
    generators and birth-death statistics, whatever is recorded.  Each output depends only on its own section and on those it is
    made from. *)
Theorem C67_outputs :
  forall e cv secs secs' w w',
  main e cv (Some (Ok secs)) = Finished w -> main e cv (Some (Ok secs')) = Finished w' ->
  same_sections secs secs' simulation_sections ->
  w_ps w = w_ps w' /\ w_rng w = w_rng w' /\ w_bd w = w_bd w' /\
  (same_sections secs secs' ["particle-distribution"] -> w_pd w = w_pd w') /\
  (same_sections secs secs' ["trajectories"] -> w_traj w = w_traj w') /\
  (same_sections secs secs' ["trajectories"; "histogram"] -> w_hist w = w_hist w') /\
  (same_sections secs secs' ["trajectories"; "histogram"; "fes"] -> w_fes w = w_fes w') /\
  (same_sections secs secs' ["trajectories"; "histogram"; "fes"; "delta-f"] -> w_df w = w_df w').
Proof. exact outputs_independent. Qed.
Print Assumptions C67_outputs.

Example C67_case : exists w w',
  main shaped_env demo_conv (Some (Ok running)) = Finished w /\ main shaped_env demo_conv (Some (Ok running_more)) = Finished w' /\
  same_sections running running_more simulation_sections /\ same_sections running running_more ["trajectories"] /\
  w_bd w <> None /\ w_traj w <> None /\ w_pd w = None /\ w_pd w' <> None.
Proof. exact independent_case. Qed.

(** If two inputs differ only in the number of steps, the longer run passes through the final state of the shorter one,
    and its trajectory files extend those of the shorter one. *)
Theorem C68_longer :
  forall e cv secs secs' c c' n n' w w',
  parse_all cv secs = Ok c -> parse_all cv secs' = Ok c' -> same_but_steps c c' ->
  assoc "n_steps" (c_ld c) = Some (VInt n) -> assoc "n_steps" (c_ld c') = Some (VInt n') -> n <= n' ->
  main e cv (Some (Ok secs)) = Finished w -> main e cv (Some (Ok secs')) = Finished w' -> rng_ok (e_rng e) -> w_ps w <> [] ->
  (exists w0 D, set_up e cv secs (configured secs) n w0 /\ history e w0 n' D /\
     w_ps w = walkers D n /\ w_rng w = snd (fst (D n)) /\ w_ps w' = walkers D n' /\ w_rng w' = snd (fst (D n'))) /\
  match w_traj w, w_traj w' with
  | Some t, Some t' =>
      match tr_files t, tr_files t' with
      | Some f, Some f' => Forall2 (fun rows rows' => exists more, rows' = rows ++ more) f f'
      | None, None => True
      | _, _ => False
      end
  | None, None => True
  | _, _ => False
  end.
Proof. exact longer_run. Qed.
Print Assumptions C68_longer.

Example C68_case : exists c c' w w',
  parse_all demo_conv running = Ok c /\ parse_all demo_conv running_longer = Ok c' /\ same_but_steps c c' /\
  assoc "n_steps" (c_ld c) = Some (VInt 4) /\ assoc "n_steps" (c_ld c') = Some (VInt 100) /\
  main shaped_env demo_conv (Some (Ok running)) = Finished w /\ main shaped_env demo_conv (Some (Ok running_longer)) = Finished w' /\
  rng_ok (e_rng shaped_env) /\ w_ps w <> [] /\ w_traj w <> None.
Proof. exact longer_case. Qed.
