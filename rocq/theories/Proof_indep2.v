(** Examples for C67 and C68 *)
From Coq Require Import Lia Lra.
From Verif Require Import PyBase Model_xr Model_input Spec_input Spec_rng Model_dyn Model_bd Model_traj Model_histaction Model_fes Model_deltaf
  Model_pdist Model_setup Model_main Spec_main Spec_whole Spec_files Spec_indep Proof_input Proof_main Proof_main2 Proof_main3 Proof_whole Proof_whole4 Proof_whole6 Proof_files10 Proof_indep.
Open Scope string_scope.
Open Scope Z_scope.

Ltac case_setup := unfold setup_actions, when, setup_birth_death, bd_init; cbn; destruct (Req_EM_T 1 0) as [H|_]; [exfalso; lra|]; cbn; reflexivity.
Ltac case_dynamics := unfold setup_dynamics; cbn [c_potential c_ld c_particles]; cbn; change (Pos.to_nat 4) with 4%nat; change (Pos.to_nat 1) with 1%nat; cbn; reflexivity.

Lemma case_a : exists c w0, parse_all demo_conv running = Ok c /\ assoc "n_steps" (c_ld c) = Some (VInt 4) /\
  set_up shaped_env demo_conv running [ALd; ABirthDeath; ATrajectories] 4 w0 /\ runnable shaped_env w0 /\ w_bd w0 <> None /\ w_traj w0 <> None.
Proof.
  eexists. eexists. split; [parse_demo|]. split; [reflexivity|]. unfold set_up. split; [do 2 eexists; split; [parse_demo|split; [case_dynamics|split; [case_setup|reflexivity]]]|].
  split; [|split; discriminate]. constructor; [exact demo_rng_ok|discriminate|left; reflexivity|cbn; split; [lia|split; left; reflexivity]|exact I].
Qed.
Lemma case_b : exists w0,
  set_up shaped_env demo_conv running_more [ALd; ABirthDeath; ATrajectories; AParticleDistribution] 4 w0 /\ runnable shaped_env w0 /\ w_pd w0 <> None.
Proof.
  eexists. unfold set_up. split; [do 2 eexists; split; [parse_demo|split; [case_dynamics|split; [case_setup|reflexivity]]]|].
  split; [|discriminate]. constructor; [exact demo_rng_ok|discriminate|left; reflexivity|cbn; split; [lia|split; left; reflexivity]|cbn; repeat constructor].
Qed.
Lemma case_c : exists c w0, parse_all demo_conv running_longer = Ok c /\ assoc "n_steps" (c_ld c) = Some (VInt 100) /\
  set_up shaped_env demo_conv running_longer [ALd; ABirthDeath; ATrajectories] 100 w0 /\ runnable shaped_env w0.
Proof.
  eexists. eexists. split; [parse_demo|]. split; [reflexivity|]. unfold set_up. split; [do 2 eexists; split; [parse_demo|split; [case_dynamics|split; [case_setup|reflexivity]]]|].
  constructor; [exact demo_rng_ok|discriminate|left; reflexivity|cbn; split; [lia|split; left; reflexivity]|exact I].
Qed.

Lemma independent_case : exists w w',
  main shaped_env demo_conv (Some (Ok running)) = Finished w /\ main shaped_env demo_conv (Some (Ok running_more)) = Finished w' /\
  same_sections running running_more simulation_sections /\ same_sections running running_more ["trajectories"] /\
  w_bd w <> None /\ w_traj w <> None /\ w_pd w = None /\ w_pd w' <> None.
Proof.
  destruct case_a as (c & w0 & _ & _ & HS & HR & Hb & Ht). destruct case_b as (w0' & HS' & HR' & Hp).
  destruct (main_total _ _ _ _ _ _ HS HR) as (w & D & F & _). destruct (main_total _ _ _ _ _ _ HS' HR') as (w' & D' & F' & _).
  exists w, w'. split; [exact F|]. split; [exact F'|].
  split; [intros x [<-|[<-|[<-|[<-|[]]]]]; reflexivity|]. split; [intros x [<-|[]]; reflexivity|].
  pose proof (set_up_steps _ _ _ _ _ _ HS) as (Hn & A).
  apply (main_composed _ _ _ _ _ _ HS) in F. apply (main_composed _ _ _ _ _ _ HS') in F'.
  apply composed_loop in F; [|lia]. apply composed_loop in F'; [|lia].
  assert (Keep : forall (v v' : world (e_rng shaped_env)), main_loop (run_action shaped_env) (final_run_action shaped_env) (present v) 4 v = Ok v' -> forall a, is_set v' a = is_set v a).
  { intros v v' G a. unfold main_loop in G. apply bind_ok in G. destruct G as (v1 & G1 & G2).
    pose proof (fold_is_set (fun a w => final_run_action shaped_env a 4 w) (fun a x x' => final_is_set shaped_env a 4 x x') _ _ _ G2) as X. rewrite X.
    clear - G1. revert v v1 G1 a. generalize (present (rng := e_rng shaped_env)). intros pr v. generalize (pr v) as l. intros l. generalize (zrange 1 (4 + 1)). intro ks. revert v.
    induction ks as [|k ks IH]; intros v v1 G1 a; cbn [foldM] in G1; [apply ok_inj in G1; subst; reflexivity|]. apply bind_ok in G1. destruct G1 as (v2 & G1 & G2).
    rewrite (IH _ _ G2). exact (fold_is_set (fun a w => run_action shaped_env a k w) (fun a x x' => run_is_set shaped_env a k x x') _ _ _ G1 a). }
  pose proof (Keep _ _ F) as K. pose proof (Keep _ _ F') as K'.
  assert (N : w_pd w0 = None).
  { assert (~ In AParticleDistribution (present w0)) by (rewrite <- A; cbn; intuition discriminate).
    destruct (w_pd w0) eqn:E; [|reflexivity]. exfalso. apply H. unfold present. apply filter_In. split; [cbn; auto 10|]. cbn [is_set]. rewrite E. reflexivity. }
  split; [|split; [|split]].
  - specialize (K ABirthDeath). cbn [is_set] in K. destruct (w_bd w0), (w_bd w); cbn [some] in *; congruence.
  - specialize (K ATrajectories). cbn [is_set] in K. destruct (w_traj w0), (w_traj w); cbn [some] in *; congruence.
  - specialize (K AParticleDistribution). cbn [is_set] in K. rewrite N in K. destruct (w_pd w); [discriminate|reflexivity].
  - specialize (K' AParticleDistribution). cbn [is_set] in K'. destruct (w_pd w0'), (w_pd w'); cbn [some] in *; congruence.
Qed.

Lemma assoc_swap {A} key k (v v' : A) l m : key <> k -> assoc key (l ++ (k, v) :: m)%list = assoc key (l ++ (k, v') :: m)%list.
Proof.
  intro H. induction l as [|[k1 v1] l IH]; cbn [app assoc].
  - destruct (String.eqb k key) eqn:E; [apply String.eqb_eq in E; congruence|reflexivity].
  - rewrite IH. reflexivity.
Qed.
Lemma parsed_both : exists d, parse_all demo_conv running = Ok d /\ exists d', parse_all demo_conv running_longer = Ok d' /\ same_but_steps d d'.
Proof.
  eexists. split; [parse_demo|]. eexists. split; [parse_demo|]. constructor; try (cbn; reflexivity).
  intros key Hk. cbn [c_ld].
  match goal with |- assoc key [?a; ?b; _; ?d] = _ => exact (assoc_swap key "n_steps" _ _ [a; b] [d] Hk) end.
Qed.

Lemma longer_case : exists c c' w w',
  parse_all demo_conv running = Ok c /\ parse_all demo_conv running_longer = Ok c' /\ same_but_steps c c' /\
  assoc "n_steps" (c_ld c) = Some (VInt 4) /\ assoc "n_steps" (c_ld c') = Some (VInt 100) /\
  main shaped_env demo_conv (Some (Ok running)) = Finished w /\ main shaped_env demo_conv (Some (Ok running_longer)) = Finished w' /\
  rng_ok (e_rng shaped_env) /\ w_ps w <> [] /\ w_traj w <> None.
Proof.
  destruct case_a as (c & w0 & P & N & HS & HR & Hb & Ht). destruct case_c as (c' & w0' & P' & N' & HS' & HR').
  destruct (main_total _ _ _ _ _ _ HS HR) as (w & D & F & _ & E & L). destruct (main_total _ _ _ _ _ _ HS' HR') as (w' & D' & F' & _).
  exists c, c', w, w'. split; [exact P|]. split; [exact P'|]. split.
  { pose proof parsed_both as X.
    destruct X as (d & E1 & d' & E2 & X). rewrite P in E1. rewrite P' in E2. apply ok_inj in E1, E2. subst. exact X. }
  split; [exact N|]. split; [exact N'|]. split; [exact F|]. split; [exact F'|]. split; [exact demo_rng_ok|].
  split.
  { intro X. rewrite X in E. destruct (L 4) as [L4 _]. rewrite <- E in L4. destruct (ru_walkers _ _ HR). destruct (w_ps w0); [reflexivity|discriminate]. }
  apply (main_composed _ _ _ _ _ _ HS) in F. destruct F as (D1 & hs & fs & _ & _ & _ & _ & _ & Ct & _).
  destruct (w_traj w0); [|congruence]. destruct Ct as (t' & -> & _). discriminate.
Qed.
