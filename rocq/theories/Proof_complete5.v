(** The example of the repository: its output files *)
From Coq Require Import Lia Lra.
From Verif Require Import PyBase Model_xr Model_input Model_dyn Model_pot Model_bd Model_corr Model_traj Model_grid Model_hist Model_histaction Model_fes Model_rec Model_deltaf Model_pdist Model_potgrid
  Model_setup Model_main Model_files Model_ini Spec_times Spec_traj Spec_fes Spec_pdist Spec_input Spec_rng Spec_ld Spec_grid Spec_gridops Spec_setup Spec_pot Spec_bdrun Spec_correction Spec_main Spec_whole Spec_hist Spec_histact
  Spec_files Spec_ini Spec_example Spec_complete Spec_examplerun
  Spec_params Proof_correction Proof_base Proof_grid Proof_hist Proof_pdist Proof_setup2 Proof_whole Proof_whole2 Proof_whole5 Proof_whole7 Proof_files3 Proof_files4 Proof_files6 Proof_files8 Proof_files9 Proof_complete Proof_complete2 Proof_complete3 Proof_complete4 Proof_repro3 Proof_example Proof_files10 Proof_main3.
Open Scope string_scope.
Open Scope Z_scope.
Open Scope list_scope.
Ltac Zify.zify_post_hook ::= idtac.

Lemma example_names_different : NoDup (example_files 10000).
Proof.
  replace (example_files 10000) with (nodup string_dec (example_files 10000)); [apply NoDup_nodup|]. vm_compute. reflexivity.
Qed.

Lemma combine_map {A B} (g : A -> B) l : combine l (map g l) = map (fun x => (x, g x)) l.
Proof. induction l; cbn; congruence. Qed.
Lemma not_none {A} (o : option A) : o <> None -> exists a, o = Some a.
Proof. destruct o; [eauto|congruence]. Qed.

Section core.
Context (e : env) (fe : files_env) (fs : fsys) (stdin : list string).
Hypothesis R : rng_ok (e_rng e).
Hypothesis G1 : griddata_exact (e_gd e).
Hypothesis G2 : griddata_pointwise (e_gd e).
Hypothesis Wr : writable fe.
Hypothesis Pl : In "png" (fe_formats fe).
Context (acts : list action) (ns : Z) (w0 w : world (e_rng e)) (D0 : Z -> dyn e).
Hypothesis Su : set_up e py_conv (meaning example_document) acts ns w0.
Hypothesis M : main e py_conv (Some (Ok (meaning example_document))) = Finished w.
Hypothesis Hh : history e w0 ns D0.
Hypothesis K : forall k, Z.of_nat (length (walkers D0 k)) = 10 /\ Forall (right_size 1) (walkers D0 k).
Hypothesis Ob : objects e example_config w0.
Hypothesis Hns : ns = 10000.

Lemma example_core : exists fs' D counts F, main_files e fe py_conv (Some (read_text example_text)) fs stdin = (fs', stdin, Finished w) /\
    history e w0 ns D /\ w_ps w = walkers D ns /\
    (forall k, 0 <= k <= ns -> length (walkers D k) = 10%nat /\ Forall (right_size 1) (walkers D k)) /\
    (forall k, 0 <= k <= ns -> k mod 100 = 0 -> data_holds [example_edges] ([0%R] :: sampled (walkers D) (zrange 1 (k + 1))) (counts k)) /\
    data_holds [example_edges] ([0%R] :: sampled (walkers D) (zrange 1 (ns + 1) ++ zrange (ns - 99) (ns + 1))) (counts (ns + 1)) /\
    (forall k, 0 <= k <= ns + 1 -> is_fes 1 (counts k) (F k)) /\
    example_output ns fe (walkers D) counts F fs' /\
    (forall f content, fs_get fs f = Some content -> ~ In f (example_files ns) -> fs_get fs' f = Some content).
Proof using All.
  destruct (example_ld e acts ns w0 Su G1 G2) as (_ & Edt & Ekt & End & Erg & Bu).
  destruct Ob as (_ & O2 & O3 & O4 & O5 & O6). cbn [c_trajectories c_histogram c_fes c_delta_f c_particle_distribution example_config] in O2, O3, O4, O5, O6.
  assert (T0 : w_traj w0 <> None) by (apply O2; discriminate). assert (H0 : w_hist w0 <> None) by (apply O3; discriminate). assert (F0 : w_fes w0 <> None) by (apply O4; discriminate).
  assert (D0' : w_df w0 <> None) by (apply O5; discriminate). assert (P0 : w_pd w0 = None) by (destruct (w_pd w0); [exfalso; apply (proj1 O6); [discriminate|reflexivity]|reflexivity]).
  clear O2 O3 O4 O5 O6. destruct (not_none _ H0) as (h0 & Eh0). destruct (not_none _ D0') as ((masks & r0) & Ed0). clear H0 D0'.
  assert (Np : w_ps w0 <> []) by (intro X; destruct (K 0) as (K0 & _); pose proof (proj1 Hh) as Hh'; unfold walkers in K0; rewrite Hh' in K0; cbn in K0; rewrite X in K0; discriminate).
  pose proof (example_bins e acts _ w0 Su G1 G2 h0 Eh0) as Eb. pose proof (example_df e acts _ w0 Su G1 G2 masks r0 h0 Ed0 Eh0) as Em.
  pose proof example_accepted as Ac.
  destruct (finished_trajectories e py_conv _ acts ns w0 w Su M R Np _ _ Ac eq_refl T0) as (D1 & t & Hh1 & _ & L1 & Et & Ft).
  destruct (finished_surfaces e py_conv _ acts ns w0 w Su M R Np (or_intror (eq_trans Erg (eq_sym End))) _ _ _ _ h0 Ac eq_refl eq_refl eq_refl Eh0 F0)
    as (D & counts & h & f & F & Hh2 & Wp2 & Cn & Eh & Dh & _ & Is & Ef & _ & Wf & Pf & Df).
  destruct (finished_histogram e py_conv _ acts ns w0 w Su M R Np (or_intror (eq_trans Erg (eq_sym End))) _ _ _ h0 Ac eq_refl eq_refl Eh0) as (D3 & h3 & _ & _ & Eh3 & Ee & _ & files & Wo & Ew).
  rewrite Eh in Eh3. injection Eh3 as <-. cbn in Wo. subst files. cbn in Ew. rewrite Dh in Ew.
  destruct (Df _ masks r0 eq_refl Ed0) as (r & Er & Fr). clear Df.
  pose proof (run_grows0 _ plain_files _ _ _ _ _ _ Su M) as Gr.
  assert (Sm : tr_mom t = None).
  { pose proof (gr_traj _ _ Gr) as X. rewrite Et in X. destruct (bu_traj _ _ _ Bu) as [Y|(o & t0 & Ec & E & Y)]; [congruence|]. rewrite Y in X. destruct X as (X & _).
    injection Ec as <-. unfold setup_trajectories in E. cbn -[traj_init Z.to_nat np_empty] in E. apply ok_inj in E. subst t0. cbn in X. destruct (tr_mom t); [discriminate|reflexivity]. }
  assert (Sb : stats_files e fe example_config w = []).
  { unfold stats_files. pose proof (gr_bd _ _ Gr) as X. destruct (w_bd w) as [[[[par g] st] rep]|]; [|reflexivity].
    destruct (bu_bd _ _ _ Bu) as [Y|(o & par0 & g0 & Ec & E & Y)]; rewrite Y in X; [destruct X|]. destruct X as (X & _). cbn in X. subst par. injection Ec as <-.
    unfold setup_birth_death in E. binds E. apply ok_inj in E. injection E as -> ->.
    match goal with H : bd_init _ _ _ _ _ _ _ _ _ _ _ _ = Ok _ |- _ => apply bd_init_attrs in H; destruct H as (_ & _ & _ & H); rewrite H end. reflexivity. }
  assert (Sp : w_pd w = None) by (pose proof (gr_pd _ _ Gr) as X; rewrite P0 in X; destruct (w_pd w); [destruct X|reflexivity]).
  pose proof (gr_ld _ _ Gr) as El.
  assert (Same : forall k, 0 <= k <= ns -> walkers D1 k = walkers D k) by (intros k Hk; unfold walkers; rewrite (history_det e w0 ns D1 D Hh1 Hh2 k) by lia; reflexivity).
  assert (Same0 : forall k, 0 <= k <= ns -> walkers D0 k = walkers D k) by (intros k Hk; unfold walkers; rewrite (history_det e w0 ns D0 D Hh Hh2 k) by lia; reflexivity).
  assert (Lw : length (w_ps w0) = 10%nat).
  { destruct (K 0) as (K0 & _). pose proof (proj1 Hh) as Hh'. unfold walkers in K0. rewrite Hh' in K0. cbn [fst dyn_of] in K0. lia. }
  rewrite Edt, Lw in Ft. change (tr_files t = Some (traj_files (5 / 1000) false (walkers D1) 5 ns 10)) in Ft.
  assert (Wf' : fa_written f = map (fun k => (Some k, F k)) (times 0 ns 500) ++ [(None, F (ns + 1))]).
  { rewrite Wf. unfold moments. change (map (fun k => (Some k, F (100 * (k / 100)))) (times 0 ns 500) ++ [(None, F (ns + 1))] = map (fun k => (Some k, F k)) (times 0 ns 500) ++ [(None, F (ns + 1))]).
    apply (f_equal2 (@app _)); [|reflexivity]. apply map_ext_in. intros k Hk. apply in_times in Hk. destruct Hk as (_ & Hk). apply Z.mod_divide in Hk; [|lia]. destruct Hk as (q & ->).
    replace (100 * (q * 500 / 100)) with (q * 500); [reflexivity|]. replace (q * 500) with (q * 5 * 100) by lia. rewrite Z.div_mul by lia. lia. }
  change (fa_plotted f = [(None, F (ns + 1))]) in Pf.
  assert (Cl : forall k, 0 <= k <= (ns + 1) -> length (counts k) = 200%nat).
  { destruct Cn as (C1 & C2). intros k Hk. rewrite Eb in C1, C2. destruct (Z_le_dec k ns) as [X|X]; [destruct (C1 k ltac:(lia)) as (-> & _); reflexivity|].
    assert (k = (ns + 1)) as -> by lia. destruct C2 as (C2 & _). exact C2. }
  assert (Fr' : rc_file r = Some (map (fun k => [Fin (IZR k * (5 / 1000)); free_energy_difference 1 (right_half (counts k)) (left_half (counts k))]) (times 0 ns 100))).
  { rewrite Edt, Ekt in Fr. assert (Rf : forall A (rows : Z -> A) last junk, recorded_file rows last junk (Some 100) None ns = map rows (times 0 ns 100)) by (intros; unfold recorded_file; rewrite Hns; reflexivity).
    change (rc_file r = Some (recorded_file (fun k => Fin (IZR k * (5 / 1000)) :: differences 1 masks (counts (100 * (k / 100)))) (Fin (IZR ns * (5 / 1000)) :: differences 1 masks (counts (ns + 1))) (e_junk_df e) (Some 100) None ns)) in Fr.
    rewrite Rf in Fr.
    rewrite Fr. apply (f_equal Some), map_ext_in. intros k Hk. apply in_times in Hk. destruct Hk as (Hk & Hm). apply Z.mod_divide in Hm; [|lia]. destruct Hm as (q & ->). rewrite Z.div_mul by lia.
    replace (100 * q) with (q * 100) by lia. rewrite Em, example_difference by (apply Cl; lia). reflexivity. }
  clear Fr Wf. change (ha_written h = [(None, counts (ns + 1))]) in Ew.
  assert (Nm : map fst (output_files e fe example_config w) = example_files ns).
  { unfold output_files, output_parts. rewrite Sb. unfold trajectory_files, histogram_files, fes_files, plot_files, delta_f_files, distribution_files.
    rewrite Et, Ft, Eh, Ef, Er, Fr', Sp, Ew, Wf', Pf. cbn [concat]. rewrite !map_app, !map_map. unfold traj_files. rewrite map_length, seq_length. unfold example_files. cbn [app map fst].
    rewrite combine_map, map_map, <- app_assoc. apply (f_equal2 (@app _)); [apply map_ext; reflexivity|].
    apply (f_equal2 (@cons _)); [reflexivity|]. apply (f_equal2 (@app _)); [apply map_ext; reflexivity|reflexivity]. }
  destruct (main_writes e fe py_conv (meaning example_document) example_config w fs stdin Wr M Ac) as (fs' & Mf & In_ & Out).
  { rewrite Nm, Hns. exact example_names_different. }
  { intros fa s f' X Y. rewrite Ef in X. injection X as <-. rewrite Pf in Y. destruct Y as [Y|[]]. injection Y as <- <-. exact Pl. }
  rewrite Nm in Out.
  exists fs', D, counts, F. rewrite example_read. split; [exact Mf|]. split; [exact Hh2|]. split; [exact Wp2|].
  split.
  { intros k Hk. destruct (K k) as (K1 & K2). rewrite (Same0 k Hk) in K1, K2. split; [lia|exact K2]. }
  destruct Cn as (C1 & C2). rewrite Eb, End in C1, C2.
  split.
  { intros k Hk Hm. specialize (C1 k Hk). rewrite <- all_sampled by (lia || assumption). exact C1. }
  split.
  { assert (E : [0%R] :: sampled (walkers D) (zrange 1 (ns + 1) ++ zrange (ns - 99) (ns + 1)) = content true 100 1 (walkers D) [0%R] [] ns ns ++ sampled (walkers D) (final_batch true 100 1 ns)).
    { rewrite all_sampled by (lia || (rewrite Hns; reflexivity)). unfold final_batch. replace (ns mod 100) with 0 by (rewrite Hns; reflexivity). cbn [Z.eqb]. unfold batch. rewrite times_one. replace (ns - 100 + 1) with (ns - 99) by lia. unfold sampled. rewrite flat_map_app. reflexivity. }
    rewrite E. exact C2. }
  rewrite Ekt in Is. split; [exact Is|]. split; [|exact Out].
  constructor.
  - intros i Hi. apply In_. unfold output_files, output_parts. cbn [concat]. rewrite !in_app_iff. right. left. unfold trajectory_files. rewrite Et, Ft, Sm. unfold traj_files. rewrite map_length, seq_length, combine_map, map_map.
    apply in_map_iff. exists i. split; [|apply in_seq; lia]. cbn [fst snd]. unfold table, traj_columns, coordinates. rewrite El, End.
    apply (f_equal2 pair); [reflexivity|]. apply (f_equal Some). apply (f_equal2 (@cons _)); [reflexivity|]. unfold traj_file. rewrite !map_map. apply map_ext_in. intros k Hk. apply in_times in Hk.
    rewrite Same by lia. unfold traj_row. rewrite app_nil_r. reflexivity.
  - destruct (run_shows_hist e fe py_conv _ acts ns w0 w _ Su M Ac h None (counts (ns + 1)) Eh) as (lines & X & Y); [rewrite El, End; lia|rewrite Ew; left; reflexivity|].
    exists lines. rewrite Ee, Eb in Y. split; [|exact Y]. apply In_. unfold output_files, output_parts. cbn [concat]. rewrite !in_app_iff. right. right. left. exact X.
  - intros k Hk. destruct (run_shows_fes e fe py_conv _ acts ns w0 w _ Su M Ac h f (Some k) (F k) Eh Ef) as (lines & X & Y); [rewrite El, End; lia|rewrite Wf'; apply in_or_app; left; apply in_map_iff; exists k; split; [reflexivity|exact Hk]|].
    exists lines. rewrite Ee, Eb in Y. split; [|exact Y]. apply In_. unfold output_files, output_parts. cbn [concat]. rewrite !in_app_iff. right. right. right. left. exact X.
  - destruct (run_shows_fes e fe py_conv _ acts ns w0 w _ Su M Ac h f None (F (ns + 1)) Eh Ef) as (lines & X & Y); [rewrite El, End; lia|rewrite Wf'; apply in_or_app; right; left; reflexivity|].
    exists lines. rewrite Ee, Eb in Y. split; [|exact Y]. apply In_. unfold output_files, output_parts. cbn [concat]. rewrite !in_app_iff. right. right. right. left. exact X.
  - apply In_. unfold output_files, output_parts. cbn [concat]. rewrite !in_app_iff. right. right. right. right. left. unfold plot_files. rewrite Ef, Pf. left. reflexivity.
  - apply In_. unfold output_files, output_parts. cbn [concat]. rewrite !in_app_iff. right. right. right. right. right. left. unfold delta_f_files. rewrite Er, Fr', Em, El, Ekt, map_map. left. reflexivity.
Qed.
End core.

Lemma example_run e fe fs stdin : rng_ok (e_rng e) -> griddata_exact (e_gd e) -> griddata_pointwise (e_gd e) -> writable fe -> In "png" (fe_formats fe) ->
  exists fs' w acts w0 D counts F, main_files e fe py_conv (Some (read_text example_text)) fs stdin = (fs', stdin, Finished w) /\
    set_up e py_conv (meaning example_document) acts 10000 w0 /\ history e w0 10000 D /\ w_ps w = walkers D 10000 /\
    (forall k, 0 <= k <= 10000 -> length (walkers D k) = 10%nat /\ Forall (right_size 1) (walkers D k)) /\
    (forall k, 0 <= k <= 10000 -> k mod 100 = 0 -> data_holds [example_edges] ([0%R] :: sampled (walkers D) (zrange 1 (k + 1))) (counts k)) /\
    data_holds [example_edges] ([0%R] :: sampled (walkers D) (zrange 1 10001 ++ zrange 9901 10001)) (counts 10001) /\
    (forall k, 0 <= k <= 10001 -> is_fes 1 (counts k) (F k)) /\
    example_output 10000 fe (walkers D) counts F fs' /\
    (forall f content, fs_get fs f = Some content -> ~ In f (example_files 10000) -> fs_get fs' f = Some content).
Proof.
  intros R G1 G2 Wr Pl.
  destruct (complete e py_conv (meaning example_document) example_config [(-25 / 10, 25 / 10)]%R 10 example_accepted R (example_sensible e G1 G2)) as (acts & ns & w0 & w & D0 & Su & Ru & M & Hh & Wp & K & _ & _ & Ob).
  destruct (example_ld e acts ns w0 Su G1 G2) as (Hns & _).
  destruct (example_core e fe fs stdin R G1 G2 Wr Pl acts ns w0 w D0 Su M Hh K Ob Hns) as (fs' & D & counts & F & X). subst ns. exists fs', w, acts, w0, D, counts, F.
  destruct X as (X1 & X2 & X3 & X4 & X5 & X6 & X7 & X8 & X9). split; [exact X1|]. split; [exact Su|]. split; [exact X2|]. split; [exact X3|]. split; [exact X4|]. split; [exact X5|]. split; [exact X6|]. split; [exact X7|]. split; [exact X8|exact X9].
Qed.

Lemma lookup_contracts : rng_ok (e_rng lookup_env) /\ griddata_exact (e_gd lookup_env) /\ griddata_pointwise (e_gd lookup_env).
Proof.
  split; [exact demo_rng_ok|]. split; [exact lookup_exact|]. exists (fun pts vals fill q => lookup_value pts vals q fill). reflexivity.
Qed.
Lemma example_case : exists e fe, rng_ok (e_rng e) /\ griddata_exact (e_gd e) /\ griddata_pointwise (e_gd e) /\ writable fe /\ In "png" (fe_formats fe).
Proof.
  exists lookup_env, plain_files. destruct lookup_contracts as (A & B & C). split; [exact A|]. split; [exact B|]. split; [exact C|]. split; [intro; reflexivity|cbn; auto].
Qed.
Lemma plane_sensible : exists c, parse_all demo_conv plane_input = Ok c /\ sensible lookup_env c [(-1.5, 1.5); (-0.5, 2.5)]%R 4 /\
  c_birth_death c <> None /\ c_trajectories c <> None.
Proof.
  eexists. split; [parse_demo|]. split; [|split; discriminate]. unfold sensible. cbn [c_potential c_ld c_particles c_birth_death c_trajectories c_histogram c_fes c_delta_f c_particle_distribution length].
  split; [|split; [|split; [|split; [|split; [|split; [|split; [|split; [|split]]]]]]]].
  - apply mueller_brown; [reflexivity|]. right. eexists. reflexivity.
  - split; [eexists; reflexivity|]. split; [right; eexists; split; [reflexivity|lia]|]. right. do 2 eexists. split; reflexivity.
  - reflexivity.
  - eexists. reflexivity.
  - apply (some_positions _ _ [[0; 1]; [1; 2]]%R); [reflexivity|left; reflexivity| |discriminate|repeat constructor].
    split; [|reflexivity]. intros [|[|[|i]]] v E; cbn in E; try discriminate E; injection E as <-; reflexivity.
  - split; [lia|]. split; [right; split; [discriminate|exists [0.1; 1]%R; split; reflexivity]|]. split.
    + intros k [<-|[<-|[]]]; left; reflexivity.
    + split; [intros _; destruct lookup_contracts as (_ & ? & ?); split; [lia|split; assumption]|]. split; [right; eexists; reflexivity|]. split; [right; eexists; split; [reflexivity|lia]|].
      right. intros m g. cbn. apply Forall_forall. intros x Hx. apply repeat_spec in Hx. subst x. lra.
  - exact I.
  - exact I.
  - exact I.
  - exact I.
Qed.
