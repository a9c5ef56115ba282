(** Examples for C71 *)
From Coq Require Import Lia Lra.
From Verif Require Import PyBase Model_xr Model_input Model_dyn Model_bd Model_traj Model_grid Model_hist Model_histaction Model_fes Model_rec Model_deltaf Model_pdist Model_potgrid
  Model_setup Model_main Spec_input Spec_rng Spec_ld Spec_grid Spec_setup Spec_fes Proof_base Proof_grid Proof_setup2 Proof_input
  Model_files Model_warn Spec_main Spec_whole Spec_histact Spec_files Spec_warn Proof_main Proof_main2 Proof_main3 Proof_setup Proof_setupex Proof_whole Proof_whole2 Proof_whole3 Proof_whole4 Proof_whole5
  Proof_files Proof_files2 Proof_files3 Proof_files4 Proof_files5 Proof_files6 Proof_files7 Proof_files8 Proof_files9 Proof_files10 Proof_warn.
Open Scope string_scope.
Open Scope Z_scope.
Open Scope list_scope.
Ltac Zify.zify_post_hook ::= idtac.

Lemma setup_fes_strides e o ld h s w : h_data (ha_hist h) <> [] -> length (h_data (ha_hist h)) = length (hist_points (ha_hist h)) -> (0 < ld_kt ld)%R -> ha_update h <> 0 -> s <> 0 ->
  get_dict o "stride" = VInt s -> get_dict o "write-stride" = VInt w -> get_dict o "plot-stride" = VNone -> v_true (get_dict o "filename") = true -> exists f, setup_fes e o ld h = Ok f.
Proof.
  intros Hd Hp Hk Hu Hs E1 E2 E3 Hf. unfold setup_fes. rewrite E1, E2, E3. cbn [v_opt_int].
  assert (exists r, calculate_reference (pot_energy (ld_pot ld)) (hist_points (ha_hist h)) true = Ok r) as (r & ->).
  { unfold calculate_reference. cbv zeta. destruct (map _ _) as [|x l] eqn:E.
    - apply (f_equal (@length R)) in E. rewrite map_length, <- Hp in E. destruct (h_data (ha_hist h)); [congruence|discriminate].
    - cbn. eauto. }
  cbn [bind]. unfold fes_init. destruct (calculate_is_fes _ _ (e_junk_fes e 0) Hd Hk) as (f & -> & _). cbn [bind].
  rewrite (proj2 (Z.eqb_neq _ _) Hu), Hf. cbn [truthyZ]. rewrite (proj2 (Z.eqb_neq _ _) Hs). cbn [negb andb]. rewrite !Bool.andb_false_r. cbn [truthyZ andb]. eauto.
Qed.

Definition current_actions : list action := [ALd; ATrajectories; AHistogram; AFes; ADeltaF].
Lemma current_set_up : exists c w0, parse_all demo_conv current_outputs = Ok c /\ set_up shaped_env demo_conv current_outputs current_actions 4 w0 /\ runnable shaped_env w0 /\
  w_hist w0 <> None /\ w_fes w0 <> None /\ (exists m1 m2 r, w_df w0 = Some ([m1; m2], r)) /\ pot_bc (ld_pot (w_ld w0)) = None /\
  exists ot oh of od, c_trajectories c = Some ot /\ c_histogram c = Some oh /\ c_fes c = Some of /\ c_delta_f c = Some od /\
    opt_set ot "filename" = true /\ opt_int ot "write-stride" = Some 1 /\ opt_int oh "stride" = Some 1 /\
    opt_int of "stride" = Some 1 /\ opt_int of "write-stride" = Some 4 /\ opt_int of "plot-stride" = None /\ opt_int od "stride" = Some 4.
Proof.
  assert (P : exists c, parse_all demo_conv current_outputs = Ok c /\ exists w1 acts w0, setup_dynamics shaped_env c = Ok w1 /\ setup_actions shaped_env c w1 = Ok (acts, w0) /\ acts = current_actions /\
    assoc "n_steps" (c_ld c) = Some (VInt 4) /\ runnable shaped_env w0 /\ w_hist w0 <> None /\ w_fes w0 <> None /\ (exists m1 m2 r, w_df w0 = Some ([m1; m2], r)) /\ pot_bc (ld_pot (w_ld w0)) = None /\
    exists ot oh of od, c_trajectories c = Some ot /\ c_histogram c = Some oh /\ c_fes c = Some of /\ c_delta_f c = Some od /\
    opt_set ot "filename" = true /\ opt_int ot "write-stride" = Some 1 /\ opt_int oh "stride" = Some 1 /\
    opt_int of "stride" = Some 1 /\ opt_int of "write-stride" = Some 4 /\ opt_int of "plot-stride" = None /\ opt_int od "stride" = Some 4).
  2:{ destruct P as (c & Hp & w1 & acts & w0 & E0 & E1 & -> & Hn & R). exists c, w0. split; [exact Hp|]. split; [|exact R]. exists c, w1. auto. }
  eexists. split; [parse_demo|].
  match goal with |- exists w1 acts w0, setup_dynamics _ ?c = _ /\ _ =>
    assert (Q : exists w1, setup_dynamics shaped_env c = Ok w1 /\ pot_ndim (ld_pot (w_ld w1)) = 1%nat /\ length (w_ps w1) = 4%nat /\ pot_bc (ld_pot (w_ld w1)) = None /\
      (0 < ld_kt (w_ld w1))%R /\ w_bd w1 = None /\ w_pd w1 = None) end.
  { eexists. split; [unfold setup_dynamics; cbn [c_potential c_ld c_particles]; cbn; change (Pos.to_nat 4) with 4%nat; change (Pos.to_nat 1) with 1%nat; cbn; reflexivity|].
    split; [reflexivity|]. split; [reflexivity|]. split; [reflexivity|]. split; [cbn; lra|split; reflexivity]. }
  destruct Q as (w1 & E0 & Hd & Hl & Hb & Hk & Hbd & Hpd). exists w1, current_actions.
  unfold setup_actions. cbn [c_birth_death c_trajectories c_histogram c_fes c_delta_f c_particle_distribution when bind fst snd].
  match goal with |- context [setup_trajectories ?e ?o ?n] => assert (T : exists t, setup_trajectories e o n = Ok t /\ tr_wstride t = 1) by (rewrite Hl; eexists; split; cbn; reflexivity) end.
  destruct T as (t & Et & Wt).
  match goal with |- context [setup_histogram ?o _ _] => destruct (setup_histogram_ok o t (-2) 2 4) as (h & Eh & Hn & Hp & He) end;
    [reflexivity|reflexivity|reflexivity|lra|lia|reflexivity|eexists; reflexivity|eexists; reflexivity|].
  assert (Hu : ha_update h = 1).
  { pose proof Eh as X. unfold setup_histogram in X. apply bind_ok in X. destruct X as ([rs bins] & _ & X). binds X. unfold ha_init in X. destruct (negb _); [discriminate|]. destruct (negb _); [discriminate|]. binds X.
    match type of X with (if ?b then _ else _) = _ => destruct b; [discriminate|] end. apply ok_inj in X. rewrite <- X. exact Wt. }
  match goal with |- context [setup_fes ?e ?o _ _] => destruct (setup_fes_strides e o (w_ld w1) h 1 4 Hn Hp Hk ltac:(lia) ltac:(lia) eq_refl eq_refl eq_refl eq_refl) as (f & Ef) end.
  match goal with |- context [setup_delta_f ?e ?o _] => assert (T : exists m1 m2 r, setup_delta_f e o (ha_hist h) = Ok ([m1; m2], r)) end.
  { destruct (h_edges (ha_hist h)) as [|ed [|? ?]] eqn:Q; try discriminate He.
    match goal with |- exists m1 m2 r, setup_delta_f ?e ?o _ = _ => destruct (delta_f_1d e o (ha_hist h) ed [[Fin (-2)]; [Fin 0]] [[Fin 0]; [Fin 2]] (Some 4) (Some 4) true) as (ms & r & E & L & _) end;
      [split; two_numbered|cbn; lia|reflexivity|repeat constructor|repeat constructor|reflexivity|reflexivity|reflexivity|split; [lia|split; [lia|split; reflexivity]]|exact Q|].
    rewrite E. destruct ms as [|m1 [|m2 [|? ?]]]; try discriminate L. eauto. }
  destruct T as (m1 & m2 & r & Ed).
  eexists. split; [exact E0|].
  split.
  { rewrite Et. red_world. rewrite Hd, Eh. red_world. rewrite Ef. red_world. rewrite Ed. red_world. reflexivity. }
  split; [reflexivity|]. split; [reflexivity|].
  split; [constructor; cbn [set_pd set_df set_fes set_hist set_traj w_ld w_ps w_bd w_pd w_df]|].
  - exact demo_rng_ok.
  - intro X. rewrite X in Hl. discriminate.
  - left. exact Hb.
  - rewrite Hbd. exact I.
  - rewrite Hpd. exact I.
  - cbn [set_pd set_df set_fes set_hist set_traj w_ld w_ps w_bd w_pd w_df w_hist w_fes]. split; [discriminate|]. split; [discriminate|]. split; [eauto|]. split; [exact Hb|].
    do 4 eexists. split; [reflexivity|]. split; [reflexivity|]. split; [reflexivity|]. split; [reflexivity|]. repeat split.
Qed.

Lemma current_case : exists c w0 w h0 ot oh of, set_up shaped_env demo_conv current_outputs current_actions 4 w0 /\
  main shaped_env demo_conv (Some (Ok current_outputs)) = Finished w /\ rng_ok (e_rng shaped_env) /\ w_ps w0 <> [] /\ pot_bc (ld_pot (w_ld w0)) = None /\
  parse_all demo_conv current_outputs = Ok c /\ c_trajectories c = Some ot /\ c_histogram c = Some oh /\ c_fes c = Some of /\ w_hist w0 = Some h0 /\ w_fes w0 <> None /\
  setup_warnings w0 = [] /\ opt_set ot "filename" = true /\ acts_at (opt_int of "write-stride") 4 /\ w_df w0 <> None.
Proof.
  destruct current_set_up as (c & w0 & Hp & HS & HR & Hh & Hf & (m1 & m2 & r & Hdf) & Hb & ot & oh & of & od & Ct & Ch & Cf & Cd & E1 & E2 & E3 & E4 & E5 & E6 & E7).
  destruct (main_total _ _ _ _ _ _ HS HR) as (w & D & HF & _). destruct (w_hist w0) as [h0|] eqn:Eh; [clear Hh|congruence].
  exists c, w0, w, h0, ot, oh, of. split; [exact HS|]. split; [exact HF|]. split; [apply HR|]. split; [apply HR|]. split; [exact Hb|]. split; [exact Hp|].
  split; [exact Ct|]. split; [exact Ch|]. split; [exact Cf|]. split; [exact Eh|]. split; [exact Hf|].
  destruct (warnings_options _ _ _ _ _ _ _ _ _ _ _ HS Hp Ct Ch Cf Eh Hf) as (_ & _ & _ & _ & _ & dfw & -> & _ & _ & Dd).
  destruct (Dd od _ Cd Hdf) as [_ ->]. rewrite E2, E4, E5, E6, E7. split; [reflexivity|]. split; [exact E1|]. split; [reflexivity|congruence].
Qed.

Lemma stale_case : exists c w0 h0 ot oh of, set_up shaped_env demo_conv all_outputs all_actions 4 w0 /\
  parse_all demo_conv all_outputs = Ok c /\ c_trajectories c = Some ot /\ c_histogram c = Some oh /\ c_fes c = Some of /\ w_hist w0 = Some h0 /\ w_fes w0 <> None /\
  In WDeltaFStride (setup_warnings w0).
Proof.
  destruct all_outputs_case as (w0 & HS & HR & HA & Hd & Hl & Hb & Hbd & Ht & Hh & Hf & (m1 & m2 & rd & Hdf) & _).
  assert (P : exists c ot oh of od, parse_all demo_conv all_outputs = Ok c /\ c_trajectories c = Some ot /\ c_histogram c = Some oh /\ c_fes c = Some of /\ c_delta_f c = Some od /\
    opt_int of "stride" = None /\ opt_int od "stride" = Some 1).
  { do 5 eexists. split; [parse_demo|]. repeat split. }
  destruct P as (c & ot & oh & of & od & Hp & Ct & Ch & Cf & Cd & E1 & E2). destruct (w_hist w0) as [h0|] eqn:Eh; [clear Hh|congruence].
  exists c, w0, h0, ot, oh, of. split; [exact HS|]. split; [exact Hp|]. split; [exact Ct|]. split; [exact Ch|]. split; [exact Cf|]. split; [exact Eh|]. split; [exact Hf|].
  destruct (warnings_options _ _ _ _ _ _ _ _ _ _ _ HS Hp Ct Ch Cf Eh Hf) as (_ & _ & _ & _ & _ & dfw & -> & _ & _ & Dd).
  destruct (Dd od _ Cd Hdf) as [_ ->]. rewrite E1, E2. apply in_or_app. right. now left.
Qed.
