(** FES of finished runs, a run that fails after an accepted input, and an example (C56) *)
From Coq Require Import Lia Lra.
From Verif Require Import PyBase Model_xr Model_input Spec_input Spec_rng Model_dyn Model_bd Model_traj Model_hist Model_histaction Model_fes Model_rec Model_deltaf
  Model_pdist Model_setup Model_main Spec_times Spec_traj Spec_trajrun Spec_hist Spec_histact Spec_setup Spec_rec Spec_fes Spec_pdist Spec_ld Spec_bdrun Spec_main Spec_whole
  Proof_base Proof_ld Proof_fes Proof_input Proof_setup2 Proof_main Proof_main2 Proof_main3 Proof_whole Proof_whole2 Proof_whole3 Proof_whole4 Proof_whole5.
Open Scope string_scope.
Open Scope Z_scope.
Open Scope list_scope.
Ltac Zify.zify_post_hook ::= idtac.

Lemma fes_run_kt h junk fa k fa' : fes_run h junk fa k = Ok fa' -> fa_kt fa' = fa_kt fa.
Proof.
  unfold fes_run. intro H. apply bind_ok in H. destruct H as (fa1 & E & H).
  assert (K : fa_kt fa1 = fa_kt fa).
  { destruct (stride_hit (fa_stride fa) k); [|apply ok_inj in E; now subst]. apply bind_ok in E. destruct E as (f & _ & E). apply ok_inj in E. now subst. }
  cbv zeta in H. apply ok_inj in H. subst fa'. rewrite <- K.
  set (fa2 := if stride_hit (fa_wstride fa1) k then fa_write fa1 (Some k) else fa1).
  assert (K2 : fa_kt fa2 = fa_kt fa1) by (unfold fa2; destruct (stride_hit (fa_wstride fa1) k); [apply write_fes|reflexivity]).
  destruct (stride_hit (fa_pstride fa2) k); [destruct (plot_fes fa2 (Some k)) as [_ ->]|]; exact K2.
Qed.
Lemma fes_loop_kt hs junk l : forall fa fa', foldM (fun fa k => fes_run (hs k) (junk k) fa k) l fa = Ok fa' -> fa_kt fa' = fa_kt fa.
Proof.
  induction l as [|k l IH]; intros fa fa' H; cbn [foldM] in H; [apply ok_inj in H; now subst|].
  apply bind_ok in H. destruct H as (fa1 & E & H). rewrite (IH _ _ H). eapply fes_run_kt; exact E.
Qed.

Lemma finished_fes e cv secs acts n w0 w : set_up e cv secs acts n w0 -> main e cv (Some (Ok secs)) = Finished w -> w_fes w0 <> None ->
  exists h f, w_hist w = Some h /\ w_fes w = Some f /\
    forall junk, calculate_fes (h_data (ha_hist h)) (ld_kt (w_ld w0)) true junk = Ok (fa_fes f).
Proof.
  intros HS HF Hf. apply (main_composed _ _ _ _ _ _ HS) in HF. destruct HF as (D & hs & fs & _ & _ & _ & _ & _ & _ & Ch & Cf & _).
  destruct HS as (c & w1 & Hp & H1 & Ha & _). pose proof (accepted_usable _ _ _ Hp) as U.
  destruct (set_up_built _ _ _ _ _ H1 Ha) as (B & Eld & _ & _).
  assert (Kt : (0 < ld_kt (w_ld w0))%R).
  { unfold setup_dynamics in H1. binds H1. apply ok_inj in H1. rewrite Eld, <- H1. cbn. eapply setup_ld_kt_pos; eassumption. }
  destruct (bu_fes _ _ _ B) as [?|(o & h0 & f0 & _ & Eh & Hs & Ef)]; [congruence|].
  rewrite Ef in Cf. rewrite Eh in Ch. destruct Ch as (_ & _ & _ & _ & Ewh & _). destruct Cf as (_ & Ewf & _ & Fin).
  exists (hs (n + 1)), (fs (n + 1)). split; [exact Ewh|]. split; [exact Ewf|].
  destruct (setup_fes_kt _ _ _ _ _ Hs) as [K0 _].
  unfold fes_simulation in Fin. apply bind_ok in Fin. destruct Fin as (fn & En & Fin). unfold fes_final_run in Fin.
  apply bind_ok in Fin. destruct Fin as (f & E & Fin). apply ok_inj in Fin. rewrite <- Fin.
  destruct (plot_fes (fa_write (fa_set_fes fn f) None) None) as [-> _]. destruct (write_fes (fa_set_fes fn f) None) as [-> _]. cbn [fa_set_fes fa_fes].
  rewrite (fes_loop_kt _ _ _ _ _ En), K0 in E.
  assert (Ne : h_data (ha_hist (hs (n + 1))) <> []) by (intro Hz; rewrite Hz in E; discriminate).
  destruct (calculate_fes_spec _ _ (e_junk_fes e (n + 1)) Ne Kt) as (f' & Hj & E' & _). rewrite E in E'. apply ok_inj in E'. subst f'. exact Hj.
Qed.

(** * An accepted input that fails during the run *)
Definition failing : list (string * section) :=
  [("ld", demo1_ld); ("potential", [("type", "mueller-brown"); ("n_dim", "1")]); ("particles", demo1_particles);
   ("particle-distribution", [("stride", "1"); ("state1-min", "0"); ("state1-max", "2")])].

Lemma short_state ps a b k : ps <> [] -> pdist_row 2 ps [[(a, b)]] k = Err IndexError.
Proof. destruct ps; [congruence|]. reflexivity. Qed.
Lemma accepted_fails : exists e cv secs acts n w0, set_up e cv secs acts n w0 /\ rng_ok (e_rng e) /\ length (w_ps w0) = 4%nat /\
  main e cv (Some (Ok secs)) = Traceback IndexError.
Proof.
  exists (demo_env 1 2 3), demo_conv, failing.
  assert (S : exists w0, set_up (demo_env 1 2 3) demo_conv failing [ALd; AParticleDistribution] 4 w0 /\ length (w_ps w0) = 4%nat /\
     pot_ndim (ld_pot (w_ld w0)) = 2%nat /\ pot_bc (ld_pot (w_ld w0)) = None /\
     exists r, w_pd w0 = Some ([[(Fin 0, Fin 2)]], r) /\ rc_stride r = 1).
  { unfold set_up. eexists. split; [do 2 eexists; split; [parse_demo|split; [|split; [|reflexivity]]]|].
    - unfold setup_dynamics. cbn [c_potential c_ld c_particles]. cbn. change (Pos.to_nat 4) with 4%nat. change (Pos.to_nat 1) with 1%nat. cbn. reflexivity.
    - cbn. reflexivity.
    - split; [reflexivity|]. split; [reflexivity|]. split; [reflexivity|]. eexists; split; reflexivity. }
  destruct S as (w0 & HS & L & Nd & Bc & r & Ep & Rs). exists [ALd; AParticleDistribution], 4, w0.
  split; [exact HS|]. split; [exact demo_rng_ok|]. split; [exact L|].
  destruct (main_of_setup _ _ _ _ _ _ HS) as (_ & ->).
  destruct HS as (c & w1 & _ & H1 & Ha & _). destruct (set_up_built _ _ _ _ _ H1 Ha) as (_ & Eld & Eps & _).
  destruct (set_up_dynamics _ _ _ H1) as (F & S0). rewrite <- Eld in F, S0. rewrite <- Eps in S0.
  destruct (ld_run_total (e_rng (demo_env 1 2 3)) (w_ld w0) demo_rng_ok F (or_introl Bc) (w_ps w0) (w_rng w0) S0) as (ps' & g' & E & _).
  pose proof (ld_run_length _ _ _ _ _ _ E) as L'.
  unfold calls, perform. change (4 + 1) with 5. rewrite (zrange_cons 1 5) by lia. cbn [flat_map map app foldM perform1 run_action].
  rewrite E. cbn [bind]. unfold set_dyn at 1 2 3. cbn [w_pd w_ps w_ld]. rewrite Ep. cbn [need bind]. unfold pdist_run, rec_run. rewrite Rs.
  change (negb (1 =? 0) && (1 mod 1 =? 0))%bool with true. cbv iota. rewrite Nd. rewrite short_state; [reflexivity|].
  intro Hz. rewrite Hz, L in L'. discriminate.
Qed.

(** * An example that runs *)
Lemma running_case : exists w0, set_up (demo_env 1 2 3) demo_conv running [ALd; ABirthDeath; ATrajectories] 4 w0 /\
  runnable (demo_env 1 2 3) w0 /\ length (w_ps w0) = 4%nat /\ w_bd w0 <> None /\ w_traj w0 <> None.
Proof.
  unfold set_up. eexists. split; [do 2 eexists; split; [parse_demo|split; [|split; [|reflexivity]]]|].
  - unfold setup_dynamics. cbn [c_potential c_ld c_particles]. cbn. change (Pos.to_nat 4) with 4%nat. change (Pos.to_nat 1) with 1%nat. cbn. reflexivity.
  - unfold setup_actions, when, setup_birth_death, bd_init. cbn. destruct (Req_EM_T 1 0) as [H|_]; [exfalso; lra|]. cbn. reflexivity.
  - split; [|split; [reflexivity|split; discriminate]]. constructor.
    + exact demo_rng_ok.
    + discriminate.
    + left. reflexivity.
    + cbn. split; [lia|]. split; [left; reflexivity|left; reflexivity].
    + exact I.
Qed.
