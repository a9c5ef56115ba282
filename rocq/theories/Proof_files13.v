(** A run that plots (C57) *)
From Coq Require Import Lia Lra Permutation.
From Verif Require Import PyBase Model_xr Model_input Model_dyn Model_bd Model_traj Model_grid Model_hist Model_histaction Model_fes Model_rec Model_deltaf Model_pdist Model_potgrid
  Model_setup Model_main Spec_input Spec_rng Spec_times Spec_ld Spec_grid Spec_setup Spec_fes Proof_base Proof_grid Proof_setup2 Proof_input
  Model_files Spec_main Spec_whole Spec_histact Spec_files Proof_main Proof_main2 Proof_main3 Proof_setup Proof_setupex Proof_whole Proof_whole2 Proof_whole3 Proof_whole4 Proof_whole5 Proof_whole7
  Proof_files Proof_files2 Proof_files3 Proof_files4 Proof_files5 Proof_files6 Proof_files7 Proof_files8 Proof_files9 Proof_files10 Proof_files12.
Open Scope string_scope.
Open Scope Z_scope.
Open Scope list_scope.
Ltac Zify.zify_post_hook ::= idtac.

Lemma setup_fes_plot_ok e o ld h : h_data (ha_hist h) <> [] -> length (h_data (ha_hist h)) = length (hist_points (ha_hist h)) -> (0 < ld_kt ld)%R -> ha_update h <> 0 ->
  get_dict o "stride" = VInt 1 -> get_dict o "write-stride" = VNone -> get_dict o "plot-stride" = VInt 4 -> v_true (get_dict o "plot-filename") = true -> exists f, setup_fes e o ld h = Ok f.
Proof.
  intros Hd Hp Hk Hu E1 E2 E3 E4. unfold setup_fes. rewrite E1, E2, E3, E4. cbn [v_opt_int].
  assert (exists r, calculate_reference (pot_energy (ld_pot ld)) (hist_points (ha_hist h)) true = Ok r) as (r & ->).
  { unfold calculate_reference. cbv zeta. destruct (map _ _) as [|x l] eqn:E.
    - apply (f_equal (@length R)) in E. rewrite map_length, <- Hp in E. destruct (h_data (ha_hist h)); [congruence|discriminate].
    - cbn. eauto. }
  cbn [bind]. unfold fes_init. destruct (calculate_is_fes _ _ (e_junk_fes e 0) Hd Hk) as (f & -> & _). cbn [bind].
  apply Z.eqb_neq in Hu. rewrite Hu. cbn. eauto.
Qed.

Definition plot_actions : list action := [ALd; ATrajectories; AHistogram; AFes].
Lemma plot_case : exists w0 ot oh of c, parse_all demo_conv plot_demo = Ok c /\ c_trajectories c = Some ot /\ c_histogram c = Some oh /\ c_fes c = Some of /\
  set_up shaped_env demo_conv plot_demo plot_actions 4 w0 /\ runnable shaped_env w0 /\ w_hist w0 <> None /\ w_fes w0 <> None /\
  opt_int of "stride" = Some 1 /\ opt_int of "plot-stride" = Some 4 /\ opt_set of "plot-filename" = true /\ file_opt of "plot-filename" = "fes.png".
Proof.
  assert (P : exists c, parse_all demo_conv plot_demo = Ok c /\ exists w1 acts w0, setup_dynamics shaped_env c = Ok w1 /\ setup_actions shaped_env c w1 = Ok (acts, w0) /\ acts = plot_actions /\
    assoc "n_steps" (c_ld c) = Some (VInt 4) /\ runnable shaped_env w0 /\ w_hist w0 <> None /\ w_fes w0 <> None /\
    exists ot oh of, c_trajectories c = Some ot /\ c_histogram c = Some oh /\ c_fes c = Some of /\
      opt_int of "stride" = Some 1 /\ opt_int of "plot-stride" = Some 4 /\ opt_set of "plot-filename" = true /\ file_opt of "plot-filename" = "fes.png").
  2:{ destruct P as (c & Hp & w1 & acts & w0 & E0 & E1 & -> & Hn & R & Nh & Nf & ot & oh & of & Ct & Ch & Cf & Q). exists w0, ot, oh, of, c.
      repeat (split; [assumption|]). split; [exists c, w1; auto|]. auto. }
  eexists. split; [parse_demo|].
  match goal with |- exists w1 acts w0, setup_dynamics _ ?c = _ /\ _ =>
    assert (Q : exists w1, setup_dynamics shaped_env c = Ok w1 /\ pot_ndim (ld_pot (w_ld w1)) = 1%nat /\ length (w_ps w1) = 4%nat /\ pot_bc (ld_pot (w_ld w1)) = None /\
      (0 < ld_kt (w_ld w1))%R /\ w_bd w1 = None /\ w_pd w1 = None) end.
  { eexists. split; [unfold setup_dynamics; cbn [c_potential c_ld c_particles]; cbn; change (Pos.to_nat 4) with 4%nat; change (Pos.to_nat 1) with 1%nat; cbn; reflexivity|].
    split; [reflexivity|]. split; [reflexivity|]. split; [reflexivity|]. split; [cbn; lra|split; reflexivity]. }
  destruct Q as (w1 & E0 & Hd & Hl & Hb & Hk & Hbd & Hpd). exists w1, plot_actions.
  unfold setup_actions. cbn [c_birth_death c_trajectories c_histogram c_fes c_delta_f c_particle_distribution when bind fst snd].
  match goal with |- context [setup_trajectories ?e ?o ?n] => assert (T : exists t, setup_trajectories e o n = Ok t) by (rewrite Hl; eexists; cbn; reflexivity) end.
  destruct T as (t & Et).
  match goal with |- context [setup_histogram ?o _ _] => destruct (setup_histogram_ok o t (-2) 2 4) as (h & Eh & Hn & Hp & He) end;
    [reflexivity|reflexivity|reflexivity|lra|lia|reflexivity|eexists; reflexivity|eexists; reflexivity|].
  assert (Hu : ha_update h <> 0).
  { intro X. assert (Ht : tr_wstride t = 100) by (rewrite Hl in Et; cbn in Et; apply ok_inj in Et; subst t; reflexivity).
    unfold setup_histogram in Eh. cbn [Nat.eqb] in Eh. binds Eh. unfold ha_init in Eh.
    repeat match type of Eh with (if ?b then _ else _) = _ => destruct b; [discriminate|] end. apply bind_ok in Eh. destruct Eh as (? & _ & Eh).
    repeat match type of Eh with (if ?b then _ else _) = _ => destruct b; [discriminate|] end. apply ok_inj in Eh. subst h. cbn [ha_update] in X. lia. }
  match goal with |- context [setup_fes ?e ?o _ _] => destruct (setup_fes_plot_ok e o (w_ld w1) h Hn Hp Hk Hu eq_refl eq_refl eq_refl eq_refl) as (f & Ef) end.
  eexists. split; [exact E0|].
  split.
  { rewrite Et. red_world. rewrite Hd, Eh. red_world. rewrite Ef. red_world. reflexivity. }
  split; [reflexivity|]. split; [reflexivity|]. cbn [set_pd set_df set_fes set_hist set_traj w_ld w_ps w_bd w_pd w_df w_hist w_fes].
  split; [constructor; cbn [set_pd set_df set_fes set_hist set_traj w_ld w_ps w_bd w_pd w_df]|].
  - exact demo_rng_ok.
  - intro X. rewrite X in Hl. discriminate.
  - left. exact Hb.
  - rewrite Hbd. exact I.
  - rewrite Hpd. exact I.
  - split; [discriminate|]. split; [discriminate|]. do 3 eexists. repeat split.
Qed.

Lemma plot_run : exists w c F2 F3, main shaped_env demo_conv (Some (Ok plot_demo)) = Finished w /\ parse_all demo_conv plot_demo = Ok c /\
  plots shaped_env c w = [("fes.png_4", F2); ("fes.png", F3)] /\ unsaved plain_files (plots shaped_env c w) 1.
Proof.
  destruct plot_case as (w0 & ot & oh & of & c & HC & Ct & Ch & Cf & HS & HR & Nh & Nf & Es & Ep & En & Ef).
  destruct (main_total _ _ _ _ _ _ HS HR) as (w & D & HF & _). destruct HR as [Rr Rw Rg _ _].
  destruct (w_hist w0) as [h0|] eqn:Eh0; [clear Nh|congruence].
  destruct (finished_surfaces _ _ _ _ _ _ _ HS HF Rr Rw Rg _ _ _ _ _ HC Ct Ch Cf Eh0 Nf) as (D3 & counts & h' & f & F & _ & _ & _ & Eh' & _ & _ & _ & Efs & _ & _ & Pl & _).
  rewrite En, Ep, Es in Pl. exists w, c, (F 4), (F 5). split; [exact HF|]. split; [exact HC|].
  assert (E : plots shaped_env c w = [("fes.png_4", F 4); ("fes.png", F 5)]).
  { unfold plots. rewrite Efs, Pl, Cf. cbn [opts]. rewrite Ef. reflexivity. }
  split; [exact E|]. rewrite E. exists [("fes.png", F 5)], [("fes.png_4", F 4)].
  split; [|split; [|split; [|reflexivity]]].
  - apply perm_swap.
  - constructor; [|constructor]. cbn. auto.
  - constructor; [|constructor]. cbn. intros [X|[X|[X|[]]]]; discriminate.
Qed.
