(** A run that only plots, and overwrites a file (C48) *)
From Coq Require Import Lia Lra Permutation.
From Verif Require Import PyBase Model_xr Model_input Model_dyn Model_bd Model_traj Model_grid Model_hist Model_histaction Model_fes Model_rec Model_deltaf Model_pdist Model_potgrid
  Model_setup Model_main Spec_input Spec_rng Spec_times Spec_ld Spec_grid Spec_setup Spec_fes Proof_base Proof_grid Proof_setup2 Proof_input
  Model_files Spec_main Spec_whole Spec_histact Spec_files Proof_main Proof_main2 Proof_main3 Proof_setup Proof_setupex Proof_whole Proof_whole2 Proof_whole3 Proof_whole4 Proof_whole5 Proof_whole7
  Proof_files Proof_files2 Proof_files3 Proof_files4 Proof_files5 Proof_files6 Proof_files7 Proof_files8 Proof_files9 Proof_files10 Proof_files12 Proof_files13.
Open Scope string_scope.
Open Scope Z_scope.
Open Scope list_scope.
Ltac Zify.zify_post_hook ::= idtac.

Lemma all_plots ops : Forall is_plot ops -> ops = map (fun p => OPlot (fst p) (snd p)) (plots_of ops).
Proof. induction 1 as [|op ops H _ IH]; [reflexivity|]. destruct op; try destruct H. unfold plots_of in *. cbn [flat_map app map fst snd]. now rewrite <- IH. Qed.
Lemma only_plots e fe cv secs c w ops : parse_all cv secs = Ok c -> main_ops e fe cv (Some (Ok secs)) = (ops, Finished w) ->
  tables e fe c w = [] -> ~ writes_grids e w -> ops = map (fun p => OPlot (fst p) (snd p)) (plots e c w).
Proof.
  intros Hc Em Ht Hg. rewrite <- (main_plots _ _ _ _ _ _ _ Hc Em). apply all_plots.
  apply ops_shape in Em. destruct Em as [(_ & N)|(c' & w0 & Hc' & E0 & [(_ & N)|(acts & w1 & w' & ops1 & ops2 & E1 & -> & In1 & G & T & Ew)])];
    [destruct (N w eq_refl)|destruct (N w eq_refl)|].
  cbn [read_input bind] in Hc'. rewrite Hc in Hc'. apply ok_inj in Hc'. subst c'. rewrite <- (Ew w eq_refl) in *. clear Ew w'.
  destruct G as (G & _ & _). apply Forall_app. split.
  - assert (Nw : ~ writes_grids e w1).
    { intro X. apply Hg. destruct X as [(h & Eh & Nh)|(f & Ef & Nf)].
      + left. pose proof (gr_hist _ _ G) as Q. rewrite Eh in Q. destruct (w_hist w) as [h'|]; cbn in Q; [|contradiction]. destruct Q as (_ & (d & Q)).
        exists h'. split; [reflexivity|]. rewrite Q. destruct (ha_written h); [congruence|discriminate].
      + right. pose proof (gr_fes _ _ G) as Q. rewrite Ef in Q. destruct (w_fes w) as [f'|]; cbn in Q; [|contradiction]. destruct Q as (_ & (d & Q) & _).
        exists f'. split; [reflexivity|]. rewrite Q. destruct (fa_written f); [congruence|discriminate]. }
    assert (Nt : tables e fe c w1 = []).
    { pose proof (tables_names e fe c _ _ G) as Q. rewrite Ht in Q. destruct (tables e fe c w1); [reflexivity|discriminate]. }
    assert (O : output_files e fe c w1 = plot_files e c w1).
    { unfold tables in Nt. apply app_eq_nil in Nt. destruct Nt as (A1 & Nt). apply app_eq_nil in Nt. destruct Nt as (A2 & Nt). apply app_eq_nil in Nt. destruct Nt as (A3 & A4).
      unfold output_files, output_parts. cbn [concat]. rewrite A1, A2, A3, A4, !app_nil_r. cbn [app].
      assert (Hh : histogram_files e fe c w1 = []).
      { unfold histogram_files. destruct (w_hist w1) as [h|] eqn:Eh; [|reflexivity]. destruct (ha_written h) eqn:Q; [reflexivity|]. exfalso. apply Nw. left. exists h. split; [exact Eh|congruence]. }
      assert (Hf : fes_files e fe c w1 = []).
      { unfold fes_files. destruct (w_hist w1) as [h|] eqn:Eh; [|reflexivity]. destruct (w_fes w1) as [f|] eqn:Ef; [|reflexivity].
        destruct (fa_written f) eqn:Q; [reflexivity|]. exfalso. apply Nw. right. exists f. split; [exact Ef|congruence]. }
      now rewrite Hh, Hf. }
    assert (P : plot_files e c w1 = []).
    { pose proof (setup_no_plots e c _ _ _ E0 E1) as Q. unfold plots in Q. unfold plot_files. destruct (w_fes w1); [|reflexivity]. apply map_eq_nil in Q. now rewrite Q. }
    rewrite O, P in In1. inversion In1. constructor.
  - eapply Forall_impl; [|exact T]. intros op Hop. destruct op; cbn [tame is_plot] in *; [contradiction|rewrite Ht in Hop; destruct Hop|destruct (Hg (proj2 (proj2 Hop)))|exact I].
Qed.

Lemma plot_demo_options : exists ot oh of, (exists c, parse_all demo_conv plot_demo = Ok c /\ c_trajectories c = Some ot /\ c_histogram c = Some oh /\ c_fes c = Some of) /\
  opt_set ot "filename" = false /\ opt_set oh "filename" = false /\ opt_int oh "write-stride" = None /\ opt_set of "filename" = false.
Proof.
  assert (P : exists c, parse_all demo_conv plot_demo = Ok c /\ exists ot oh of, c_trajectories c = Some ot /\ c_histogram c = Some oh /\ c_fes c = Some of /\
    opt_set ot "filename" = false /\ opt_set oh "filename" = false /\ opt_int oh "write-stride" = None /\ opt_set of "filename" = false).
  { eexists. split; [parse_demo|]. do 3 eexists. repeat split. }
  destruct P as (c & Hc & ot & oh & of & A & B & C & D). exists ot, oh, of. split; [exists c; auto|exact D].
Qed.
Definition precious : list line := [Text "precious"].
Lemma plot_loses : exists w F, main_files shaped_env plain_files demo_conv (Some (Ok plot_demo)) [("fes.png", precious)] [""] = ([("fes.png", [Image F])], [], Finished w).
Proof.
  destruct plot_case as (w0 & ot & oh & of & c & HC & Ct & Ch & Cf & HS & HR & Nh & Nf & Es & Ep & En & Ef).
  destruct plot_demo_options as (ot' & oh' & of' & (c' & HC' & Ct' & Ch' & Cf') & Tf & Hf & Hw & Ff).
  rewrite HC in HC'. apply ok_inj in HC'. subst c'. rewrite Ct in Ct'. injection Ct' as <-. rewrite Ch in Ch'. injection Ch' as <-. rewrite Cf in Cf'. injection Cf' as <-.
  destruct plot_run as (w & c' & F2 & F3 & HF & HC' & Pl & _). rewrite HC in HC'. apply ok_inj in HC'. subst c'.
  destruct HR as [Rr Rw Rg Rb Rp].
  assert (Nt : w_traj w0 <> None).
  { destruct HS as (c1 & w1 & Hp1 & H1 & Ha & _). destruct (set_up_built _ _ _ _ _ H1 Ha) as (B & _). destruct (bu_hist _ _ _ B) as [X|(o & t & h & _ & Et & _)]; congruence. }
  destruct (finished_trajectories _ _ _ _ _ _ _ HS HF Rr Rw _ _ HC Ct Nt) as (D1 & t & _ & _ & _ & Et & Ft). rewrite Tf in Ft.
  destruct (w_hist w0) as [h0|] eqn:Eh0; [clear Nh|congruence].
  destruct (finished_histogram _ _ _ _ _ _ _ HS HF Rr Rw Rg _ _ _ _ HC Ct Ch Eh0) as (D2 & h & _ & _ & Eh & _ & _ & files & Wf & Wh). rewrite Hf in Wh.
  unfold written_ok in Wf. rewrite Hw in Wf. subst files. cbn [app] in Wh.
  destruct (finished_surfaces _ _ _ _ _ _ _ HS HF Rr Rw Rg _ _ _ _ _ HC Ct Ch Cf Eh0 Nf) as (D3 & counts & h' & f & F & _ & _ & _ & _ & _ & _ & _ & Efs & _ & Wr & _ & _).
  rewrite Ff in Wr. pose proof (run_grows0 _ plain_files _ _ _ _ _ _ HS HF) as G.
  assert (Nw0 : w_bd w0 = None /\ w_df w0 = None /\ w_pd w0 = None).
  { destruct HS as (c1 & w1 & Hp1 & H1 & Ha & _). rewrite HC in Hp1. apply ok_inj in Hp1. subst c1.
    assert (N : c_birth_death c = None /\ c_delta_f c = None /\ c_particle_distribution c = None).
    { assert (X : exists c, parse_all demo_conv plot_demo = Ok c /\ c_birth_death c = None /\ c_delta_f c = None /\ c_particle_distribution c = None).
      { eexists. split; [parse_demo|]. repeat split. }
      destruct X as (c1 & X & Y). rewrite HC in X. apply ok_inj in X. now subst c1. }
    destruct N as (N1 & N2 & N3). destruct (set_up_built _ _ _ _ _ H1 Ha) as (B & _). split; [|split].
    - destruct (bu_bd _ _ _ B) as [X|X]; [exact X|]. exfalso. decompose [ex and] X. congruence.
    - destruct (bu_df _ _ _ B) as [X|X]; [exact X|]. exfalso. decompose [ex and] X. congruence.
    - destruct (bu_pd _ _ _ B) as [X|X]; [exact X|]. exfalso. decompose [ex and] X. congruence. }
  destruct Nw0 as (Nb & Nd & Np).
  assert (Ebd : w_bd w = None) by (pose proof (gr_bd _ _ G) as X; rewrite Nb in X; destruct (w_bd w); [destruct X|reflexivity]).
  assert (Edf : w_df w = None) by (pose proof (gr_df _ _ G) as X; rewrite Nd in X; destruct (w_df w); [destruct X|reflexivity]).
  assert (Epd : w_pd w = None) by (pose proof (gr_pd _ _ G) as X; rewrite Np in X; destruct (w_pd w); [destruct X|reflexivity]).
  exists w, F3. pose proof (ops_outcome shaped_env plain_files demo_conv (Some (Ok plot_demo))) as Eo. unfold main_files.
  destruct (main_ops shaped_env plain_files demo_conv (Some (Ok plot_demo))) as [ops o] eqn:Em. cbn [snd] in Eo. rewrite HF in Eo. subst o.
  assert (Eops : ops = map (fun p => OPlot (fst p) (snd p)) (plots shaped_env c w)).
  { refine (only_plots _ _ _ _ _ _ _ HC Em _ _).
    - unfold tables, stats_files, trajectory_files, delta_f_files, distribution_files. now rewrite Ebd, Et, Ft, Edf, Epd.
    - intros [(h1 & X & Y)|(f1 & X & Y)]; [rewrite Eh in X; injection X as <-; congruence|rewrite Efs in X; injection X as <-; congruence]. }
  rewrite Eops, Pl. reflexivity.
Qed.

(** * Statements for Prop_files *)
Lemma run_loses : exists e fe cv file fs stdin fs' stdin' w content, writable fe /\ available fs content /\
  main_files e fe cv file fs stdin = (fs', stdin', Finished w) /\ ~ available_prefix fs' content.
Proof.
  destruct plot_loses as (w & F & E). exists shaped_env, plain_files, demo_conv, (Some (Ok plot_demo)), [("fes.png", precious)], [""], [("fes.png", [Image F])], [], w, precious.
  split; [intro; reflexivity|]. split; [exists "fes.png"; reflexivity|]. split; [exact E|].
  intros (name & more & H). unfold fs_get in H. cbn [assoc fst snd] in H. destruct (String.eqb "fes.png" name); [|discriminate]. injection H as H. discriminate.
Qed.
Lemma plain_run e fe cv secs c w fs stdin : writable fe -> In "png" (fe_formats fe) -> main e cv (Some (Ok secs)) = Finished w -> parse_all cv secs = Ok c ->
  has_char "." (after_last "/" (file_opt (opts (c_fes c)) "plot-filename")) = false ->
  exists fs', main_files e fe cv (Some (Ok secs)) fs stdin = (fs', stdin, Finished w).
Proof.
  intros Hw Hf Hm Hc Hp. apply (answered e fe cv secs c w fs stdin 0 Hw Hm Hc). exists (plots e c w), [].
  split; [rewrite app_nil_r; apply Permutation_refl|]. split; [|split; [constructor|reflexivity]].
  apply Forall_forall. intros p Hin. unfold plots in Hin. destruct (w_fes w); [|destruct Hin]. apply in_map_iff in Hin. destruct Hin as (sd & <- & _). cbn [fst]. now apply plain_plottable.
Qed.
Lemma plot_stops : exists e fe cv secs w, writable fe /\ main e cv (Some (Ok secs)) = Finished w /\
  exists fs', main_files e fe cv (Some (Ok secs)) [] [] = (fs', [], Traceback EOFError).
Proof.
  destruct plot_run as (w & c & F2 & F3 & HF & HC & Pl & U). exists shaped_env, plain_files, demo_conv, plot_demo, w. split; [intro; reflexivity|]. split; [exact HF|].
  destruct (answered shaped_env plain_files demo_conv plot_demo c w [] [] 1 (fun _ => eq_refl) HF HC U) as (_ & A). apply (A 0%nat). lia.
Qed.
