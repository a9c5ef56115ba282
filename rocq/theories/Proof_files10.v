(** Examples of runs with output files *)
From Coq Require Import Lia Lra.
From Verif Require Import PyBase Model_xr Model_input Model_dyn Model_bd Model_traj Model_grid Model_hist Model_histaction Model_fes Model_rec Model_deltaf Model_pdist Model_potgrid
  Model_setup Model_main Spec_input Spec_rng Spec_ld Spec_grid Spec_setup Spec_fes Proof_base Proof_grid Proof_setup2 Proof_input
  Model_files Spec_main Spec_whole Spec_histact Spec_files Proof_main Proof_main2 Proof_main3 Proof_setup Proof_setupex Proof_whole Proof_whole2 Proof_whole3 Proof_whole4 Proof_whole5
  Proof_files Proof_files2 Proof_files3 Proof_files4 Proof_files5 Proof_files6 Proof_files7 Proof_files8 Proof_files9.
Open Scope string_scope.
Open Scope Z_scope.
Open Scope list_scope.
Ltac Zify.zify_post_hook ::= idtac.

Lemma hist_init_ok n lo hi : (lo < hi)%R -> (0 < n)%nat -> exists h, hist_init [n] [(lo, hi)] = Ok h /\ length (h_edges h) = 1%nat /\ length (h_data h) = n.
Proof.
  intros Hl Hn. unfold hist_init. cbn [map stepsizes_from_npoints bind length Nat.eqb negb combine mapM fst snd].
  destruct n as [|n]; [lia|]. cbn [bin_edges]. destruct (Rlt_dec hi lo); [lra|]. cbn [Nat.eqb]. destruct (Req_EM_T lo hi); [lra|]. cbn [bind].
  unfold histogramdd. cbn [forallb repeat length Nat.eqb andb bind]. eexists. split; [reflexivity|]. split; [reflexivity|]. cbn [h_data].
  match goal with |- length (bincount ?E ?s ?z) = _ => assert (H : histogramdd E s = Ok (bincount E s z)) by reflexivity end.
  apply histogramdd_size in H. rewrite H. unfold n_bins_of, linspace. cbn [map prod_list]. rewrite map_length, seq_length. cbn. lia.
Qed.
Lemma setup_fes_ok e o ld h : h_data (ha_hist h) <> [] -> length (h_data (ha_hist h)) = length (hist_points (ha_hist h)) -> (0 < ld_kt ld)%R ->
  get_dict o "stride" = VNone -> get_dict o "write-stride" = VNone -> get_dict o "plot-stride" = VNone -> exists f, setup_fes e o ld h = Ok f.
Proof.
  intros Hd Hp Hk E1 E2 E3. unfold setup_fes. rewrite E1, E2, E3. cbn [v_opt_int].
  assert (exists r, calculate_reference (pot_energy (ld_pot ld)) (hist_points (ha_hist h)) true = Ok r) as (r & ->).
  { unfold calculate_reference. cbv zeta. destruct (map _ _) as [|x l] eqn:E.
    - apply (f_equal (@length R)) in E. rewrite map_length, <- Hp in E. destruct (h_data (ha_hist h)); [congruence|discriminate].
    - cbn. eauto. }
  cbn [bind]. unfold fes_init. destruct (calculate_is_fes _ _ (e_junk_fes e 0) Hd Hk) as (f & -> & _). cbn [bind truthyZ andb]. eauto.
Qed.

Lemma setup_histogram_ok o t lo hi n : v_hist_bound (get_dict o "min") = Ok lo -> v_hist_bound (get_dict o "max") = Ok hi -> get_dict o "bins" = VInt n ->
  (lo < hi)%R -> 0 < n -> get_dict o "write-stride" = VNone -> (exists s, v_opt_int (get_dict o "stride") = Ok s) -> (exists r, v_opt_ints (get_dict o "reset") = Ok r) ->
  exists h, setup_histogram o 1 t = Ok h /\ h_data (ha_hist h) <> [] /\ length (h_data (ha_hist h)) = length (hist_points (ha_hist h)) /\ length (h_edges (ha_hist h)) = 1%nat.
Proof.
  intros H1 H2 H3 Hl Hn H4 (s & H5) (r & H6). unfold setup_histogram. cbn [Nat.eqb]. rewrite H1, H2, H3, H4, H5, H6. cbn [v_int v_opt_int bind].
  unfold ha_init. cbn [map length Nat.eqb negb]. destruct (hist_init_ok (Z.to_nat n) lo hi Hl ltac:(lia)) as (h & Eh & L & D). rewrite Eh. cbn [bind truthyZ andb].
  eexists. split; [reflexivity|]. cbn [ha_hist]. split; [|split; [|exact L]].
  - intro X. rewrite X in D. cbn in D. lia.
  - rewrite hist_points_length. destruct (hist_init_size _ _ _ Eh) as ((_ & S) & _). rewrite S. apply prod_size.
Qed.

Ltac red_world := cbn [bind fst snd need app set_traj set_hist set_fes set_df set_pd w_ld w_ps w_traj w_hist w_fes w_df w_pd w_bd w_rng].
Definition all_actions : list action := [ALd; ATrajectories; AHistogram; AFes; ADeltaF; AParticleDistribution].
Lemma all_outputs_case : exists w0, set_up shaped_env demo_conv all_outputs all_actions 4 w0 /\ runnable shaped_env w0 /\ array_shapes shaped_env w0 /\
  pot_ndim (ld_pot (w_ld w0)) = 1%nat /\ length (w_ps w0) = 4%nat /\ pot_bc (ld_pot (w_ld w0)) = None /\ w_bd w0 = None /\ w_traj w0 <> None /\ w_hist w0 <> None /\ w_fes w0 <> None /\ (exists m1 m2 r, w_df w0 = Some ([m1; m2], r)) /\ exists a r, w_pd w0 = Some ([[a]], r).
Proof.
  assert (P : exists c, parse_all demo_conv all_outputs = Ok c /\ exists w1 acts w0, setup_dynamics shaped_env c = Ok w1 /\ setup_actions shaped_env c w1 = Ok (acts, w0) /\ acts = all_actions /\
    assoc "n_steps" (c_ld c) = Some (VInt 4) /\ runnable shaped_env w0 /\ array_shapes shaped_env w0 /\ pot_ndim (ld_pot (w_ld w0)) = 1%nat /\ length (w_ps w0) = 4%nat /\ pot_bc (ld_pot (w_ld w0)) = None /\ w_bd w0 = None /\ w_traj w0 <> None /\ w_hist w0 <> None /\ w_fes w0 <> None /\ (exists m1 m2 r, w_df w0 = Some ([m1; m2], r)) /\ exists a r, w_pd w0 = Some ([[a]], r)).
  2:{ destruct P as (c & Hp & w1 & acts & w0 & E0 & E1 & -> & Hn & R). exists w0. split; [|exact R]. exists c, w1. auto. }
  eexists. split; [parse_demo|].
  match goal with |- exists w1 acts w0, setup_dynamics _ ?c = _ /\ _ =>
    assert (Q : exists w1, setup_dynamics shaped_env c = Ok w1 /\ pot_ndim (ld_pot (w_ld w1)) = 1%nat /\ length (w_ps w1) = 4%nat /\ pot_bc (ld_pot (w_ld w1)) = None /\
      (0 < ld_kt (w_ld w1))%R /\ w_bd w1 = None) end.
  { eexists. split; [unfold setup_dynamics; cbn [c_potential c_ld c_particles]; cbn; change (Pos.to_nat 4) with 4%nat; change (Pos.to_nat 1) with 1%nat; cbn; reflexivity|].
    split; [reflexivity|]. split; [reflexivity|]. split; [reflexivity|]. split; [cbn; lra|reflexivity]. }
  destruct Q as (w1 & E0 & Hd & Hl & Hb & Hk & Hbd). exists w1, all_actions.
  unfold setup_actions. cbn [c_birth_death c_trajectories c_histogram c_fes c_delta_f c_particle_distribution when bind fst snd].
  match goal with |- context [setup_trajectories ?e ?o ?n] => assert (T : exists t, setup_trajectories e o n = Ok t) by (rewrite Hl; eexists; cbn; reflexivity) end.
  destruct T as (t & Et).
  match goal with |- context [setup_histogram ?o _ _] => destruct (setup_histogram_ok o t (-2) 2 4) as (h & Eh & Hn & Hp & He) end;
    [reflexivity|reflexivity|reflexivity|lra|lia|reflexivity|eexists; reflexivity|eexists; reflexivity|].
  match goal with |- context [setup_fes ?e ?o _ _] => destruct (setup_fes_ok e o (w_ld w1) h Hn Hp Hk eq_refl eq_refl eq_refl) as (f & Ef) end.
  match goal with |- context [setup_delta_f ?e ?o _] => assert (T : exists m1 m2 r, setup_delta_f e o (ha_hist h) = Ok ([m1; m2], r)) end.
  { destruct (h_edges (ha_hist h)) as [|ed [|? ?]] eqn:Q; try discriminate He.
    match goal with |- exists m1 m2 r, setup_delta_f ?e ?o _ = _ => destruct (delta_f_1d e o (ha_hist h) ed [[Fin (-2)]; [Fin 0]] [[Fin 0]; [Fin 2]] (Some 1) (Some 4) true) as (ms & r & E & L & _) end;
      [split; two_numbered|cbn; lia|reflexivity|repeat constructor|repeat constructor|reflexivity|reflexivity|reflexivity|split; [lia|split; [lia|split; reflexivity]]|exact Q|].
    rewrite E. destruct ms as [|m1 [|m2 [|? ?]]]; try discriminate L. eauto. }
  destruct T as (m1 & m2 & r & Ed).
  match goal with |- context [setup_particle_distribution ?e ?o] => assert (T : exists a r, setup_particle_distribution e o = Ok ([[a]], r)) by (do 2 eexists; cbn; reflexivity) end.
  destruct T as (a & r' & Ep).
  eexists. split; [exact E0|].
  split.
  { rewrite Et. red_world. rewrite Hd, Eh. red_world. rewrite Ef. red_world. rewrite Ed. red_world. rewrite Ep. red_world. reflexivity. }
  split; [reflexivity|]. split; [reflexivity|]. cbn [set_pd set_df set_fes set_hist set_traj w_ld w_ps w_bd w_pd w_df].
  split; [constructor; cbn [set_pd set_df set_fes set_hist set_traj w_ld w_ps w_bd w_pd w_df]|].
  - exact demo_rng_ok.
  - intro X. rewrite X in Hl. discriminate.
  - left. exact Hb.
  - rewrite Hbd. exact I.
  - rewrite Hd. repeat constructor.
  - split; [|split; [exact Hd|split; [exact Hl|split; [exact Hb|split; [exact Hbd|split; [discriminate|split; [discriminate|split; [discriminate|split; [eauto|eauto]]]]]]]]]. split; cbn [set_pd set_df set_fes set_hist set_traj w_ld w_ps w_bd w_pd w_df]; intros ? ? X; injection X as <- <-; split; reflexivity.
Qed.
