(** From the options to the simulation (C79, C80): the theorems and their examples *)
From Coq Require Import Lia Lra.
From Verif Require Import PyBase Model_xr Model_input Spec_input Spec_rng Model_dyn Model_pot Model_bd Model_setup Model_main Spec_main
  Model_traj Model_histaction Model_fes Model_rec Model_hist Model_pdist Model_deltaf Spec_files
  Spec_grid Spec_pot Spec_setup Spec_hist Spec_ld Spec_params Proof_base Proof_input Proof_pot Proof_hist Proof_setup Proof_main Proof_main2 Proof_main3
  Proof_whole Proof_whole2 Proof_files10 Proof_params Proof_params2 Proof_params3 Proof_params4.
Open Scope string_scope.
Open Scope Z_scope.
Ltac Zify.zify_post_hook ::= idtac.

Section theorems.
Context (e : env) (cv : conv) (secs : list (string * section)) (acts : list action) (n : Z) (w : world (e_rng e)).
Context (HP : percent_free secs) (HS : set_up e cv secs acts n w).

Lemma set_up_parts : exists c pot ld g ps, parse_all cv secs = Ok c /\ assoc "n_steps" (c_ld c) = Some (VInt n) /\
  setup_potential e (c_potential c) = Ok pot /\ setup_ld e (c_ld c) pot = Ok (ld, g) /\ init_particles e (c_particles c) ld = Ok ps /\
  built e c w /\ w_ld w = ld /\ w_ps w = ps /\ w_rng w = g.
Proof using All.
  destruct HS as (c & w0 & Hp & H0 & H1 & Hn). destruct (set_up_built _ _ _ _ _ H0 H1) as (B & E1 & E2 & E3).
  unfold setup_dynamics in H0. apply bind_ok in H0. destruct H0 as (pot & Epot & H0). apply bind_ok in H0. destruct H0 as ([ld g] & Eld & H0).
  apply bind_ok in H0. destruct H0 as (ps & Eps & H0). apply ok_inj in H0. subst w0. cbn [w_ld w_ps w_rng] in *.
  exists c, pot, ld, g, ps. auto 20.
Qed.
Lemma dynamics_from_input : dynamics_given cv secs n (w_ld w) /\ seeded cv secs "ld" (e_rng e) (e_os_ld e) (w_rng w).
Proof using All.
  destruct set_up_parts as (c & pot & ld & g & ps & Hp & Hn & E1 & E2 & E3 & B & -> & _ & ->).
  destruct (ld_given cv secs HP c Hp e pot ld g n E2 Hn) as (A & B' & _). auto.
Qed.
Lemma potential_from_input : potential_given cv secs (e_coeff_file e) (ld_pot (w_ld w)).
Proof using All.
  destruct set_up_parts as (c & pot & ld & g & ps & Hp & Hn & E1 & E2 & E3 & B & -> & _ & _).
  destruct (ld_given cv secs HP c Hp e pot ld g n E2 Hn) as (_ & _ & ->). exact (pot_given cv secs HP c Hp e pot E1).
Qed.
Lemma walkers_from_input : rng_ok (e_rng e) -> walkers_given cv secs (e_rng e) (e_os_init e) (w_ld w) (w_ps w).
Proof using All.
  intro R. destruct set_up_parts as (c & pot & ld & g & ps & Hp & Hn & E1 & E2 & E3 & B & -> & -> & _).
  exact (part_given cv secs HP c Hp e ld ps R E3).
Qed.
Lemma birth_death_from_input par g st rep : w_bd w = Some (par, g, st, rep) ->
  birth_death_given cv secs (e_rng e) (e_os_bd e) (w_ld w) par g /\ st = stats0 /\ rep = [].
Proof using All.
  intro H. destruct set_up_parts as (c & pot & ld & g0 & ps & Hp & Hn & E1 & E2 & E3 & B & _ & _ & _).
  destruct (bu_bd _ _ _ B) as [X|(o & par' & g' & O & S & X)]; [congruence|]. rewrite H in X. injection X as -> -> -> ->.
  split; [exact (bd_given cv secs HP c Hp e o _ _ _ O S)|auto].
Qed.
Lemma outputs_from_input :
  (forall t, w_traj w = Some t -> trajectory_output cv secs t) /\
  (forall h, w_hist w = Some h -> bins_given cv secs (pot_ndim (ld_pot (w_ld w))) (h_edges (ha_hist h)) /\ histogram_output cv secs h) /\
  (forall f, w_fes w = Some f -> fes_output cv secs f /\ fa_kt f = ld_kt (w_ld w)) /\
  (forall masks r, w_df w = Some (masks, r) -> recorder_output cv secs "delta-f" r /\
     exists states h, states_in_input cv secs "delta-f" states /\ w_hist w = Some h /\
       pos_inside_ranges (length (h_edges (ha_hist h))) (hist_points (ha_hist h)) states = Ok masks) /\
  (forall states r, w_pd w = Some (states, r) -> recorder_output cv secs "particle-distribution" r /\
     states_in_input cv secs "particle-distribution" states).
Proof using All.
  destruct set_up_parts as (c & pot & ld & g0 & ps & Hp & Hn & E1 & E2 & E3 & B & _ & _ & _).
  split; [|split; [|split; [|split]]].
  - intros t H. destruct (bu_traj _ _ _ B) as [X|(o & t' & O & S & X)]; [congruence|]. rewrite H in X. injection X as ->.
    exact (traj_given cv secs HP c Hp e o _ _ O S).
  - intros h H. destruct (bu_hist _ _ _ B) as [X|(o & t' & h' & O & _ & S & X)]; [congruence|]. rewrite H in X. injection X as ->.
    exact (hist_given cv secs HP c Hp o _ _ _ O S).
  - intros f H. destruct (bu_fes _ _ _ B) as [X|(o & h' & f' & O & _ & S & X)]; [congruence|]. rewrite H in X. injection X as ->.
    exact (fes_given cv secs HP c Hp e o _ _ _ O S).
  - intros masks r H. destruct (bu_df _ _ _ B) as [X|(o & h' & d & O & Hh & _ & S & X)]; [congruence|]. rewrite H in X. injection X as <-.
    unfold setup_delta_f in S. apply bind_ok in S. destruct S as (states & Hst & S). destruct (Nat.ltb _ 2); [discriminate|]. cbv zeta in S.
    apply bind_ok in S. destruct S as (ms & Hms & S). apply bind_ok in S. destruct S as (s & Hs & S). apply bind_ok in S. destruct S as (ws & Hws & S).
    apply bind_ok in S. destruct S as (r' & Hr & S). apply ok_inj in S. injection S as -> ->.
    unfold delta_f_init in Hr. apply bind_ok in Hr. destruct Hr as (? & _ & Hr). split.
    + eapply (recorder_given cv secs HP c Hp); [in_list|exact O|exact Hs|exact Hws|exact Hr].
    + exists states, h'. split; [|split; [exact Hh|exact Hms]]. eapply (states_given_in cv secs HP c Hp); [in_list|exact O|exact Hst].
  - intros states r H. destruct (bu_pd _ _ _ B) as [X|(o & d & O & S & X)]; [congruence|]. rewrite H in X. injection X as <-.
    unfold setup_particle_distribution in S. apply bind_ok in S. destruct S as (states' & Hst & S).
    apply bind_ok in S. destruct S as (s & Hs & S). apply bind_ok in S. destruct S as (ws & Hws & S).
    apply bind_ok in S. destruct S as (r' & Hr & S). apply ok_inj in S. injection S as -> ->. split.
    + eapply (recorder_given cv secs HP c Hp); [in_list|exact O|exact Hs|exact Hws|exact Hr].
    + eapply (states_given_in cv secs HP c Hp); [in_list|exact O|exact Hst].
Qed.
End theorems.

Ltac percents := let name := fresh in let sec := fresh in let H := fresh in intros name sec H; cbn in H;
  repeat (match type of H with (if ?b then _ else _) = _ => destruct b; [injection H as <-; repeat constructor|] end); discriminate H.
Lemma all_outputs_plain : percent_free all_outputs.
Proof. unfold all_outputs, demo1. percents. Qed.
Lemma plane_plain : percent_free plane_input.
Proof. unfold plane_input. percents. Qed.

Lemma line_case : exists w, set_up shaped_env demo_conv all_outputs all_actions 4 w /\ percent_free all_outputs /\ rng_ok (e_rng shaped_env) /\
  w_traj w <> None /\ w_hist w <> None /\ w_fes w <> None /\ w_df w <> None /\ w_pd w <> None.
Proof.
  destruct all_outputs_case as (w0 & HS & HR & HA & Hd & Hl & Hb & Hbd & Ht & Hh & Hf & (m1 & m2 & rd & Hdf) & (a & r & Hpd)).
  exists w0. split; [exact HS|]. split; [exact all_outputs_plain|]. split; [apply HR|]. split; [exact Ht|]. split; [exact Hh|]. split; [exact Hf|]. split; congruence.
Qed.
Lemma plane_case : exists w par g, set_up shaped_env demo_conv plane_input [ALd; ABirthDeath; ATrajectories] 4 w /\ percent_free plane_input /\
  w_bd w = Some (par, g, stats0, []) /\ length (w_ps w) = 4%nat /\ bd_bw par = [0.1; 1]%R /\ bd_rate par = 2%R /\ bd_recalc par = true /\ pot_bc (ld_pot (w_ld w)) = Some Reflective.
Proof.
  do 3 eexists. split; [do 2 eexists; split; [parse_demo|]; split; [unfold setup_dynamics; cbn [c_potential c_ld c_particles]; cbn; change (Pos.to_nat 4) with 4%nat; cbn; reflexivity|]|].
  - split; [|reflexivity]. unfold setup_actions, when, setup_birth_death, bd_init. cbn. destruct (Req_EM_T 2 0) as [H|_]; [exfalso; lra|]. cbn. reflexivity.
  - split; [exact plane_plain|]. split; [reflexivity|]. split; [reflexivity|]. split; [reflexivity|]. split; [|split; reflexivity].
    cbn. destruct (Req_EM_T 2 0) as [H|_]; [exfalso; lra|reflexivity].
Qed.

(** * C80 *)
Lemma values_case : exists c, percent_free plane_input /\ parse_all demo_conv plane_input = Ok c /\
  option_value c "particles" "pos2" = VFloats [Fin 1; Fin 2] /\ in_sequence plane_input "particles" "pos2" /\
  option_of demo_conv plane_input "particles" "pos2" KFloats /\
  option_value c "birth-death" "recalculate-probabilities" = VBool true /\
  option_value c "trajectories" "write-stride" = VNone /\ option_value c "particles" "mass" = VFloat (Fin 2) /\
  required demo_conv plane_input "ld" "friction".
Proof.
  eexists. split; [exact plane_plain|]. split; [parse_demo|]. split; [reflexivity|].
  assert (G : forall j, (j <= 1)%nat -> exists text, given plane_input "particles" (prefixed "pos" (S j) "") text).
  { intros j Hj. destruct j as [|[|j]]; [| |lia]; eexists; eexists; split; reflexivity. }
  split.
  { intros pre suf i Hi E j Hj. destruct Hi as [Hi|[Hi|[Hi|[]]]]; injection Hi as <- <-; [|discriminate E|discriminate E].
    change "pos2" with (prefixed "pos" 2 "") in E. apply prefixed_inj in E. apply G. lia. }
  split. { apply oo_part_pos; [exists 1%nat; reflexivity|]. left. eexists. split; reflexivity. }
  split; [reflexivity|]. split; [reflexivity|]. split; [reflexivity|]. apply rq_ld_bp; [eexists; split; reflexivity|]. right. left. reflexivity.
Qed.
