(** Sensible inputs run to the end: the objects at the end, the example of the repository *)
From Coq Require Import Lia Lra.
From Verif Require Import PyBase Model_xr Model_input Model_dyn Model_pot Model_bd Model_corr Model_traj Model_grid Model_hist Model_histaction Model_fes Model_rec Model_deltaf Model_pdist Model_potgrid
  Model_setup Model_main Model_files Model_ini Spec_input Spec_rng Spec_ld Spec_grid Spec_gridops Spec_setup Spec_pot Spec_bdrun Spec_correction Spec_main Spec_whole Spec_hist Spec_files Spec_ini Spec_example Spec_complete
  Proof_base Proof_whole Proof_whole5 Proof_files4 Proof_files8 Proof_complete Proof_complete2 Proof_repro3 Proof_example.
Open Scope string_scope.
Open Scope Z_scope.
Open Scope list_scope.
Ltac Zify.zify_post_hook ::= idtac.

Lemma opt_rel_some {A} (Rl : A -> A -> Prop) a b : opt_rel Rl a b -> (b <> None <-> a <> None).
Proof. destruct a, b; cbn; intro H; split; intros; try discriminate; try easy; inversion H. Qed.
Lemma grown_objects e c (w0 w : world (e_rng e)) : grows w0 w -> objects e c w0 -> objects e c w.
Proof.
  intros [_ G1 G2 G3 G4 G5 G6] (O1 & O2 & O3 & O4 & O5 & O6). apply opt_rel_some in G1, G2, G3, G4, G5, G6.
  unfold objects. tauto.
Qed.

Lemma sensible_finishes e cv secs c ranges n : parse_all cv secs = Ok c -> rng_ok (e_rng e) -> sensible e c ranges n ->
  exists w, main e cv (Some (Ok secs)) = Finished w /\ Z.of_nat (length (w_ps w)) = n /\ Forall (right_size (length ranges)) (w_ps w) /\ objects e c w.
Proof.
  intros Hp R S. destruct (complete _ _ _ _ _ _ Hp R S) as (acts & ns & w0 & w & D & Su & Ru & M & Hh & Wp & K & _ & _ & Ob).
  exists w. split; [exact M|]. rewrite Wp. destruct (K ns) as (K1 & K2). split; [exact K1|]. split; [exact K2|].
  apply (grown_objects e c w0 w); [|exact Ob]. exact (run_grows0 _ plain_files _ _ _ _ _ _ Su M).
Qed.

Lemma example_sensible e : griddata_exact (e_gd e) -> griddata_pointwise (e_gd e) -> sensible e example_config [(-25 / 10, 25 / 10)]%R 10.
Proof.
  intros G1 G2. unfold sensible. cbn [c_potential c_ld c_particles c_birth_death c_trajectories c_histogram c_fes c_delta_f c_particle_distribution example_config length].
  split; [|split; [|split; [|split; [|split; [|split; [|split; [|split; [|split]]]]]]]].
  - apply (polynomial_1d e _ [0; 2 / 10; -4; 0; 1]%R); try reflexivity; [discriminate|lra].
  - split; [eexists; reflexivity|]. split; [right; eexists; split; [reflexivity|lia]|]. right. do 2 eexists. split; reflexivity.
  - reflexivity.
  - eexists. reflexivity.
  - apply anywhere; [reflexivity|]. right. eexists. split; [reflexivity|lia].
  - split; [lia|]. split; [left; split; [reflexivity|eexists; reflexivity]|]. split.
    + intros k [<-|[<-|[]]]; [right; exists "multiplicative"; split; [reflexivity|cbn; auto 10]|left; reflexivity].
    + split; [intros _; split; [lia|split; assumption]|]. split; [left; reflexivity|]. split; [right; eexists; split; [reflexivity|lia]|]. left. reflexivity.
  - split; [discriminate|]. split; [left; split; [reflexivity|]; do 3 eexists; repeat split; try reflexivity; lra|]. left. reflexivity.
  - repeat split.
    + right. eexists. split; [reflexivity|discriminate].
    + left. reflexivity.
    + left. reflexivity.
    + left. discriminate.
  - split; [reflexivity|]. split.
    + exists (Some 100), None. repeat split; cbn; try lia.
    + exists [[Fin (-25 / 10)]; [Fin 0]]%R, [[Fin 0]; [Fin (25 / 10)]]%R. repeat split; try (repeat constructor; fail).
      * intros [|[|[|i]]] v E; cbn in E; try discriminate E; injection E as <-; reflexivity.
      * intros [|[|[|i]]] v E; cbn in E; try discriminate E; injection E as <-; reflexivity.
  - exact I.
Qed.
