(** Sensible inputs run to the end: the complete program *)
From Coq Require Import Lia Lra.
From Verif Require Import PyBase Model_xr Model_input Model_dyn Model_pot Model_bd Model_corr Model_traj Model_grid Model_hist Model_histaction Model_fes Model_rec Model_deltaf Model_pdist Model_potgrid
  Model_setup Model_main Spec_input Spec_rng Spec_ld Spec_grid Spec_gridops Spec_setup Spec_pot Spec_bdrun Spec_correction Spec_main Spec_whole Spec_hist Spec_complete
  Proof_base Proof_grid Proof_grid2 Proof_correction Proof_hist Proof_pot Proof_fes Proof_setup Proof_setup2 Proof_input Proof_whole Proof_whole2 Proof_whole3 Proof_whole4 Proof_whole5 Proof_files9 Proof_complete.
Open Scope string_scope.
Open Scope Z_scope.
Open Scope list_scope.
Ltac Zify.zify_post_hook ::= idtac.

Lemma fes_ok e c d ld h : usable c -> c_fes c = Some d -> sensible_fes d -> h_data (ha_hist h) <> [] -> length (h_data (ha_hist h)) = length (hist_points (ha_hist h)) ->
  ha_update h <> 0 -> (0 < ld_kt ld)%R -> exists f, setup_fes e d ld h = Ok f /\ d <> [].
Proof.
  intros (_ & _ & _ & _ & _ & _ & _ & _ & U & _) Hc (N1 & N2 & Hp & Hs) Hd Hl Hu Hk. rewrite Hc in U. destruct U as (U1 & U2 & U3).
  assert (Nd : d <> []) by (intros ->; destruct U1 as [U1|(z & U1 & _)]; discriminate).
  destruct (opt_int_get _ _ U1) as (s & E1 & P1 & Q1). destruct (opt_int_get _ _ U2) as (w & E2 & P2 & Q2).
  assert (exists p, v_opt_int (get_dict d "plot-stride") = Ok p /\ (p = None <-> assoc "plot-stride" d = Some VNone)) as (p & E3 & Q3).
  { destruct Hp as [Hp|(z & Hp)]; rewrite (get_of_assoc _ _ _ Hp); cbn; eexists; split; try reflexivity; rewrite Hp; split; congruence. }
  unfold setup_fes. rewrite E1, E2, E3.
  assert (exists r, calculate_reference (pot_energy (ld_pot ld)) (hist_points (ha_hist h)) true = Ok r) as (r & ->).
  { unfold calculate_reference. cbv zeta. destruct (map _ _) as [|x l] eqn:E.
    - apply (f_equal (@length R)) in E. rewrite map_length, <- Hl in E. destruct (h_data (ha_hist h)); [congruence|discriminate].
    - cbn. eauto. }
  cbn [bind]. unfold fes_init. destruct (calculate_is_fes _ _ (e_junk_fes e 0) Hd Hk) as (f & -> & _). cbn [bind].
  destruct (Z.eqb_spec (ha_update h) 0); [congruence|]. rewrite andb_false_r.
  assert (Hw : truthyZ w = true -> truthyZ s = true /\ v_true (get_dict d "filename") = true).
  { destruct w as [w|]; [|discriminate]. intros _. assert (assoc "write-stride" d <> Some VNone) as X by (intro X; apply Q2 in X; discriminate).
    split; [|exact (named_true _ _ _ N1 X)]. destruct Hs as [Hs|(Hs & _)]; [|congruence]. destruct s as [s|]; [cbn; destruct (Z.eqb_spec s 0); [lia|reflexivity]|]. exfalso. apply Hs, Q1. reflexivity. }
  assert (Hq : truthyZ p = true -> truthyZ s = true /\ v_true (get_dict d "plot-filename") = true).
  { destruct p as [p|]; [|discriminate]. intros _. assert (assoc "plot-stride" d <> Some VNone) as X by (intro X; apply Q3 in X; discriminate).
    split; [|exact (named_true _ _ _ N2 X)]. destruct Hs as [Hs|(_ & Hs)]; [|congruence]. destruct s as [s|]; [cbn; destruct (Z.eqb_spec s 0); [lia|reflexivity]|]. exfalso. apply Hs, Q1. reflexivity. }
  destruct (truthyZ w); [destruct (Hw eq_refl) as (-> & ->)|]; cbn [andb negb]; (destruct (truthyZ p); [destruct (Hq eq_refl) as (A & ->); try rewrite A|]; cbn [andb negb]); eauto.
Qed.

Lemma recording d : sensible_recording d -> exists s w, optional_int d "stride" s /\ optional_int d "write-stride" w /\ strides_fit s w (v_true (get_dict d "filename")) /\ d <> [].
Proof.
  intros (s & w & A & B & C). exists s, w. repeat split; auto.
  - unfold strides_fit, get_dict in *. destruct s; [|exact I]. destruct C as (C & D). split; [exact C|]. destruct w; [|exact I]. destruct D as (D & F & M). repeat split; auto. destruct (assoc "filename" d) as [[]|]; cbn; auto; discriminate.
  - intros ->. discriminate A.
Qed.
Lemma delta_ok e d h : sensible_delta_f d (length (h_edges h)) -> exists r, setup_delta_f e d h = Ok r /\ d <> [].
Proof.
  intros (H1 & Hr & mins & maxs & G & L & Lm & F1 & F2). destruct (recording _ Hr) as (s & w & A & B & C & N).
  destruct (h_edges h) as [|ed [|? ?]] eqn:E; try discriminate H1.
  destruct (delta_f_1d e d h ed mins maxs s w _ G L Lm F1 F2 A B eq_refl C E) as (ms & r & X & _). eauto.
Qed.
Lemma distribution_ok e d n_dim : sensible_distribution d n_dim -> exists states r, setup_particle_distribution e d = Ok (states, r) /\ Forall (fun st => length st = n_dim) states /\ d <> [].
Proof.
  intros (Hr & mins & maxs & G & L & Lm & F1 & F2). destruct (recording _ Hr) as (s & w & A & B & C & N).
  unfold setup_particle_distribution. rewrite (state_ranges_given _ _ _ G), (ranges_exact _ _ L). rewrite Lm, Nat.eqb_refl. cbn [negb].
  replace (existsb _ _) with false.
  2:{ symmetry. apply Bool.not_true_iff_false. intro H. apply existsb_exists in H. destruct H as ([a b] & Hin & H).
      cbn [fst snd] in H. apply andb_true_iff in H. destruct H as [G1 _]. apply negb_true_iff, Nat.eqb_neq in G1. apply G1.
      rewrite Forall_forall in F1, F2. rewrite (F1 a), (F2 b); [reflexivity|eapply in_combine_r; exact Hin|eapply in_combine_l; exact Hin]. }
  cbn [bind]. rewrite (v_opt_int_of _ _ _ A), (v_opt_int_of _ _ _ B). cbn [bind].
  destruct (strides_rec s w _ (np_empty (e_junk_pd e)) (e_junk_pd1 e) C) as (r & Er). unfold pdist_init. rewrite Er. cbn [bind].
  do 2 eexists. split; [reflexivity|]. split; [|exact N]. apply Forall_forall. intros st Hst. apply in_map_iff in Hst. destruct Hst as ([a b] & <- & Hin). cbn [fst snd]. rewrite combine_length.
  rewrite Forall_forall in F1, F2. rewrite (F1 a), (F2 b); [apply Nat.min_id|eapply in_combine_r; exact Hin|eapply in_combine_l; exact Hin].
Qed.

Lemma when_ok e d a setup s w : d <> [] -> setup d (snd s) = Ok w -> when e (Some d) a setup s = Ok (fst s ++ [a], w).
Proof. intros N E. destruct d; [congruence|]. cbn [when]. rewrite E. reflexivity. Qed.

(** what is set up *)
Lemma opt_iff {A B} (a : option A) (b : option B) : (a = None <-> b = None) -> (a <> None <-> b <> None).
Proof. tauto. Qed.

Lemma actions_ok e cv secs c ranges n w0 : parse_all cv secs = Ok c -> sensible e c ranges n -> setup_dynamics e c = Ok w0 ->
  length ranges = pot_ndim (ld_pot (w_ld w0)) -> pot_ranges (ld_pot (w_ld w0)) = ranges -> increasing ranges -> (0 < ld_kt (w_ld w0))%R -> Z.of_nat (length (w_ps w0)) = n ->
  rng_ok (e_rng e) -> 0 < n ->
  exists acts w, setup_actions e c w0 = Ok (acts, w) /\ runnable e w /\ w_ld w = w_ld w0 /\ w_ps w = w_ps w0 /\ objects e c w.
Proof.
  intros Hp (_ & _ & _ & _ & _ & Hbd & Hh & Hf & Hdf & Hpd) E0 Lr Rr Ir Pk Ln R Pn.
  pose proof (accepted_usable _ _ _ Hp) as U. rewrite Lr in *.
  assert (W0 : w_bd w0 = None /\ w_traj w0 = None /\ w_hist w0 = None /\ w_fes w0 = None /\ w_df w0 = None /\ w_pd w0 = None).
  { unfold setup_dynamics in E0. apply bind_ok in E0. destruct E0 as (pot & _ & E0). apply bind_ok in E0. destruct E0 as ([ld g] & _ & E0). apply bind_ok in E0. destruct E0 as (ps & _ & E0). apply ok_inj in E0. subst w0. repeat split. }
  destruct W0 as (B0 & T0 & H0 & F0 & D0 & P0).
  unfold setup_actions. cbv zeta.
  (* birth-death *)
  match goal with |- context [when e (c_birth_death c) ?a ?f ?s] =>
    assert (S1 : exists acts w, when e (c_birth_death c) a f s = Ok (acts, w) /\ w_ld w = w_ld w0 /\ w_ps w = w_ps w0 /\ (w_bd w = None <-> c_birth_death c = None) /\
      match w_bd w with None => True | Some (par, _, _, _) => (2 <= length (w_ps w0))%nat /\ (bd_variant par = VOrig \/ griddata_pointwise (e_gd e)) /\
              (bd_recalc par = false \/ forall m g, Forall (fun u => 0 < u)%R (fst (r_random (e_rng e) m g))) end /\
      w_traj w = None /\ w_hist w = None /\ w_fes w = None /\ w_df w = None /\ w_pd w = None) end.
  { destruct (c_birth_death c) as [d|] eqn:Ec.
    - cbn [on_section] in Hbd. destruct (birth_death_ok e c d (w_ld w0) n U Ec Hbd) as (par & g & E & V & M); [congruence|congruence|exact Pk|].
      assert (Nd : d <> []). { intros ->. destruct U as (_ & _ & _ & _ & _ & U & _). rewrite Ec in U. destruct U as ((z & U & _) & _). discriminate U. }
      do 2 eexists. split; [apply when_ok; [exact Nd|cbn [snd]; rewrite E; cbn [bind]; reflexivity]|]. cbn [set_bd w_ld w_ps w_bd w_traj w_hist w_fes w_df w_pd].
      repeat split; auto; try discriminate. destruct Hbd as (H2 & _). lia.
    - do 2 eexists. split; [reflexivity|]. cbn [snd]. rewrite B0. repeat split; auto. }
  destruct S1 as (a1 & w1 & -> & L1 & Q1 & B1 & V1 & T1 & H1 & F1 & D1 & P1). cbn [bind].
  (* trajectories *)
  match goal with |- context [when e (c_trajectories c) ?a ?f ?s] =>
    assert (S2 : exists acts w, when e (c_trajectories c) a f s = Ok (acts, w) /\ w_ld w = w_ld w0 /\ w_ps w = w_ps w0 /\ w_bd w = w_bd w1 /\
      (w_traj w = None <-> c_trajectories c = None) /\ (forall t, w_traj w = Some t -> tr_wstride t <> 0) /\
      w_hist w = None /\ w_fes w = None /\ w_df w = None /\ w_pd w = None) end.
  { destruct (c_trajectories c) as [d|] eqn:Ec.
    - destruct (trajectories_ok e c d (length (w_ps w1)) U Ec) as (t & E & Nt & Nd).
      do 2 eexists. split; [apply when_ok; [exact Nd|cbn [snd]; rewrite E; cbn [bind]; reflexivity]|]. cbn [set_traj w_ld w_ps w_bd w_traj w_hist w_fes w_df w_pd].
      repeat split; auto; try discriminate. intros t' X. injection X as <-. exact Nt.
    - do 2 eexists. split; [reflexivity|]. cbn [snd]. rewrite T1. repeat split; auto. discriminate. }
  destruct S2 as (a2 & w2 & -> & L2 & Q2 & B2 & T2 & TW & H2 & F2 & D2 & P2). cbn [bind].
  (* histogram *)
  match goal with |- context [when e (c_histogram c) ?a ?f ?s] =>
    assert (S3 : exists acts w, when e (c_histogram c) a f s = Ok (acts, w) /\ w_ld w = w_ld w0 /\ w_ps w = w_ps w0 /\ w_bd w = w_bd w1 /\ w_traj w = w_traj w2 /\
      (w_hist w = None <-> c_histogram c = None) /\
      (forall h, w_hist w = Some h -> h_data (ha_hist h) <> [] /\ length (h_data (ha_hist h)) = length (hist_points (ha_hist h)) /\ length (h_edges (ha_hist h)) = pot_ndim (ld_pot (w_ld w0)) /\ ha_update h <> 0) /\
      w_fes w = None /\ w_df w = None /\ w_pd w = None) end.
  { destruct (c_histogram c) as [d|] eqn:Ec.
    - cbn [on_section] in Hh. destruct Hh as (Ht & Hh). destruct (w_traj w2) as [t|] eqn:Et; [|exfalso; apply Ht; apply T2; reflexivity].
      destruct (histogram_ok c d _ t U Ec Hh (TW _ eq_refl)) as (h & E & X1 & X2 & X3 & X4 & Nd).
      do 2 eexists. split; [apply when_ok; [exact Nd|cbn [snd]; rewrite Et; cbn [need bind]; rewrite L2, E; cbn [bind]; reflexivity]|]. cbn [set_hist w_ld w_ps w_bd w_traj w_hist w_fes w_df w_pd].
      split; [exact L2|]. split; [exact Q2|]. split; [exact B2|]. split; [exact Et|]. split; [split; discriminate|]. split; [intros h' X; injection X as <-; auto|auto].
    - do 2 eexists. split; [reflexivity|]. cbn [snd]. rewrite H2. repeat split; auto; discriminate. }
  destruct S3 as (a3 & w3 & -> & L3 & Q3 & B3 & T3 & H3 & HD & F3 & D3 & P3). cbn [bind].
  destruct (parse_all_inv _ _ _ Hp) as (s1 & s2 & s3 & _ & _ & _ & _ & _ & _ & _ & _ & _ & PF & PD & _).
  assert (NF : c_fes c <> None -> c_histogram c <> None).
  { intros X Y. unfold optional_section in PF. destruct (assoc "fes" secs) as [sec|]; [|injection PF as PF; congruence]. unfold parse_fes in PF. rewrite Y in PF. discriminate PF. }
  assert (ND : c_delta_f c <> None -> c_fes c <> None).
  { intros X Y. unfold optional_section in PD. destruct (assoc "delta-f" secs) as [sec|]; [|injection PD as PD; congruence]. unfold parse_delta_f in PD. rewrite Y in PD. discriminate PD. }
  (* fes *)
  match goal with |- context [when e (c_fes c) ?a ?f ?s] =>
    assert (S4 : exists acts w, when e (c_fes c) a f s = Ok (acts, w) /\ w_ld w = w_ld w0 /\ w_ps w = w_ps w0 /\ w_bd w = w_bd w1 /\ w_traj w = w_traj w2 /\ w_hist w = w_hist w3 /\
      (w_fes w = None <-> c_fes c = None) /\ w_df w = None /\ w_pd w = None) end.
  { destruct (c_fes c) as [d|] eqn:Ec.
    - cbn [on_section] in Hf. destruct (w_hist w3) as [h|] eqn:Eh; [|exfalso; apply NF; [discriminate|]; apply H3; reflexivity].
      destruct (HD _ eq_refl) as (X1 & X2 & X3 & X4). destruct (fes_ok e c d (w_ld w0) h U Ec Hf X1 X2 X4 Pk) as (f & E & Nd).
      do 2 eexists. split; [apply when_ok; [exact Nd|cbn [snd]; rewrite Eh; cbn [need bind]; rewrite L3, E; cbn [bind]; reflexivity]|]. cbn [set_fes w_ld w_ps w_bd w_traj w_hist w_fes w_df w_pd].
      repeat split; auto; discriminate.
    - do 2 eexists. split; [reflexivity|]. cbn [snd]. rewrite F3. repeat split; auto; discriminate. }
  destruct S4 as (a4 & w4 & -> & L4 & Q4 & B4 & T4 & H4 & F4 & D4 & P4). cbn [bind].
  (* delta-f *)
  match goal with |- context [when e (c_delta_f c) ?a ?f ?s] =>
    assert (S5 : exists acts w, when e (c_delta_f c) a f s = Ok (acts, w) /\ w_ld w = w_ld w0 /\ w_ps w = w_ps w0 /\ w_bd w = w_bd w1 /\ w_traj w = w_traj w2 /\ w_hist w = w_hist w3 /\
      w_fes w = w_fes w4 /\ (w_df w = None <-> c_delta_f c = None) /\ w_pd w = None) end.
  { destruct (c_delta_f c) as [d|] eqn:Ec.
    - cbn [on_section] in Hdf. destruct (w_fes w4) as [f|] eqn:Ef; [|exfalso; apply ND; [discriminate|]; apply F4; reflexivity].
      assert (c_fes c <> None) as Y by (intro Y; apply F4 in Y; discriminate). apply NF in Y.
      destruct (w_hist w3) as [h|] eqn:Eh; [|exfalso; apply Y, H3; reflexivity].
      destruct (HD _ eq_refl) as (_ & _ & X3 & _). rewrite <- X3 in Hdf. destruct (delta_ok e d _ Hdf) as (r & E & Nd).
      do 2 eexists. split; [apply when_ok; [exact Nd|cbn [snd]; rewrite Ef, H4; cbn [need bind]; rewrite E; cbn [bind]; reflexivity]|]. cbn [set_df w_ld w_ps w_bd w_traj w_hist w_fes w_df w_pd].
      repeat split; auto; discriminate.
    - do 2 eexists. split; [reflexivity|]. cbn [snd]. rewrite D4. repeat split; auto; discriminate. }
  destruct S5 as (a5 & w5 & -> & L5 & Q5 & B5 & T5 & H5 & F5 & D5 & P5). cbn [bind].
  (* particle-distribution *)
  match goal with |- exists acts w, when e (c_particle_distribution c) ?a ?f ?s = Ok (acts, w) /\ _ =>
    assert (S6 : exists acts w, when e (c_particle_distribution c) a f s = Ok (acts, w) /\ w_ld w = w_ld w0 /\ w_ps w = w_ps w0 /\ w_bd w = w_bd w1 /\ w_traj w = w_traj w2 /\ w_hist w = w_hist w3 /\
      w_fes w = w_fes w4 /\ w_df w = w_df w5 /\ (w_pd w = None <-> c_particle_distribution c = None) /\
      match w_pd w with None => True | Some (states, _) => Forall (fun st => length st = pot_ndim (ld_pot (w_ld w0))) states end) end.
  { destruct (c_particle_distribution c) as [d|] eqn:Ec.
    - cbn [on_section] in Hpd. destruct (distribution_ok e d _ Hpd) as (states & r & E & Fs & Nd).
      do 2 eexists. split; [apply when_ok; [exact Nd|cbn [snd]; rewrite E; cbn [bind]; reflexivity]|]. cbn [set_pd w_ld w_ps w_bd w_traj w_hist w_fes w_df w_pd].
      repeat split; auto; discriminate.
    - do 2 eexists. split; [reflexivity|]. cbn [snd]. rewrite P5. repeat split; auto; discriminate. }
  destruct S6 as (a6 & w6 & E6 & L6 & Q6 & B6 & T6 & H6 & F6 & D6 & P6 & PS).
  exists a6, w6. split; [exact E6|]. split; [|split; [exact L6|split; [exact Q6|]]].
  - constructor.
    + exact R.
    + rewrite Q6. intro X. rewrite X in Ln. cbn in Ln. lia.
    + right. rewrite L6. congruence.
    + rewrite B6, Q6. exact V1.
    + rewrite L6. exact PS.
  - unfold objects. rewrite B6, T6, H6, F6, D6. repeat split; intro X; intro Y; apply X; tauto.
Qed.

Lemma complete e cv secs c ranges n : parse_all cv secs = Ok c -> rng_ok (e_rng e) -> sensible e c ranges n ->
  exists acts n_steps w0 w D, set_up e cv secs acts n_steps w0 /\ runnable e w0 /\ main e cv (Some (Ok secs)) = Finished w /\ history e w0 n_steps D /\ w_ps w = walkers D n_steps /\
    (forall k, Z.of_nat (length (walkers D k)) = n /\ Forall (right_size (length ranges)) (walkers D k)) /\
    0 < n_steps /\ assoc "n_steps" (c_ld c) = Some (VInt n_steps) /\ objects e c w0.
Proof.
  intros Hp R S. pose proof (accepted_usable _ _ _ Hp) as U. pose proof S as (Sp & Sd & Sn & (m & Sm) & Sw & _).
  destruct (parse_all_inv _ _ _ Hp) as (s1 & s2 & s3 & _ & _ & _ & _ & _ & PP & _).
  destruct (potential_ok e _ _ Sp) as (pot & Epot & Nd & Rg & Inc).
  destruct (dynamics_ok e c pot U Sd) as (ld & g & Eld & Lp & Pk).
  destruct (walkers_ok_init e cv s3 c ld n m R U PP) as (ps & Eps & Lps & Pn); [rewrite Lp, Nd, Rg; reflexivity|rewrite Lp, Rg; exact Inc|exact Sn|exact Sm|rewrite Lp, Nd; exact Sw|].
  assert (E0 : setup_dynamics e c = Ok (mkWorld ld ps g None None None None None None)).
  { unfold setup_dynamics. rewrite Epot. cbn [bind]. rewrite Eld. cbn [bind]. rewrite Eps. reflexivity. }
  destruct (actions_ok e cv secs c ranges n _ Hp S E0) as (acts & w0 & Ea & Ru & Lw & Qw & Ob); cbn [w_ld w_ps]; [rewrite Lp; congruence|rewrite Lp; exact Rg|exact Inc|exact Pk|exact Lps|exact R|exact Pn|].
  destruct U as ((ns & Hns & Pns) & _).
  assert (Su : set_up e cv secs acts ns w0) by (exists c; eexists; eauto).
  destruct (main_total _ _ _ _ _ _ Su Ru) as (w & D & M & Hi & Wp & K).
  exists acts, ns, w0, w, D. split; [exact Su|]. split; [exact Ru|]. split; [exact M|]. split; [exact Hi|]. split; [exact Wp|]. split; [|auto].
  intro k. destruct (K k) as (K1 & K2). rewrite Qw in K1. rewrite Lw in K2. cbn [w_ld w_ps] in K1, K2. rewrite Lp, Nd in K2. split; [lia|exact K2].
Qed.
