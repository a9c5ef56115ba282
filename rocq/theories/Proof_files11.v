(** The files of the example *)
From Coq Require Import Lia Lra.
From Verif Require Import PyBase Model_xr Model_input Model_dyn Model_bd Model_traj Model_hist Model_histaction Model_fes Model_rec Model_deltaf Model_pdist
  Model_setup Model_main Model_files Spec_input Spec_rng Spec_times Spec_traj Spec_trajrun Spec_hist Spec_histact Spec_setup Spec_fes Spec_rec Spec_pdist Spec_main Spec_whole Spec_files
  Proof_base Proof_main Proof_main2 Proof_main3 Proof_whole Proof_whole2 Proof_whole3 Proof_whole4 Proof_whole5 Proof_whole7
  Proof_files Proof_files4 Proof_files6 Proof_files7 Proof_files8 Proof_files9 Proof_files10.
Open Scope string_scope.
Open Scope Z_scope.
Open Scope list_scope.
Ltac Zify.zify_post_hook ::= idtac.

Lemma all_outputs_files : exists w0 w c, set_up shaped_env demo_conv all_outputs all_actions 4 w0 /\ runnable shaped_env w0 /\ array_shapes shaped_env w0 /\
  main shaped_env demo_conv (Some (Ok all_outputs)) = Finished w /\ parse_all demo_conv all_outputs = Ok c /\
  pot_ndim (ld_pot (w_ld w0)) = 1%nat /\ length (w_ps w0) = 4%nat /\
  map fst (output_files shaped_env plain_files c w) = ["traj.0"; "traj.1"; "traj.2"; "traj.3"; "hist"; "fes"; "delta_f"; "dist"] /\
  (forall fa, w_fes w = Some fa -> fa_plotted fa = []) /\
  (exists h counts, w_hist w = Some h /\ ha_written h = [(None, counts)]) /\ (exists f v, w_fes w = Some f /\ fa_written f = [(None, v)]) /\
  (exists masks r, w_df w = Some (masks, r) /\ length masks = 2%nat) /\
  exists states r lines row, w_pd w = Some (states, r) /\ length states = 1%nat /\
    In ("dist", Some lines) (distribution_files shaped_env plain_files c w) /\ In (Row row) lines.
Proof.
  destruct all_outputs_case as (w0 & HS & HR & HA & Hd & Hl & Hb & Hbd & Ht & Hh & Hf & (m1 & m2 & rd & Hdf) & (a & rp & Hpd)).
  destruct (main_total _ _ _ _ _ _ HS HR) as (w & D & HF & _). exists w0, w.
  assert (P : exists c, parse_all demo_conv all_outputs = Ok c /\ 
    (exists ot, c_trajectories c = Some ot /\ opt_set ot "filename" = true /\ file_opt (opts (c_trajectories c)) "filename" = "traj") /\
    (exists oh, c_histogram c = Some oh /\ opt_set oh "filename" = true /\ opt_int oh "write-stride" = None /\ file_opt (opts (c_histogram c)) "filename" = "hist") /\
    (exists of, c_fes c = Some of /\ opt_set of "filename" = true /\ opt_set of "plot-filename" = false /\ opt_int of "write-stride" = None /\ file_opt (opts (c_fes c)) "filename" = "fes") /\
    (exists od, c_delta_f c = Some od /\ opt_set od "filename" = true /\ file_opt (opts (c_delta_f c)) "filename" = "delta_f") /\
    (exists op, c_particle_distribution c = Some op /\ opt_set op "filename" = true /\ opt_int op "stride" = Some 1 /\ opt_int op "write-stride" = Some 4 /\ file_opt (opts (c_particle_distribution c)) "filename" = "dist")).
  { eexists. split; [parse_demo|]. repeat split; eexists; repeat split. }
  destruct P as (c & HC & (ot & Ct & Tf & Tn) & (oh & Ch & Hfn & Hws & Hn) & (of & Cf & Ff & Fp & Fw & Fn) & (od & Cd & Df & Dn) & (op & Cp & Pf & Ps & Pw & Pn)).
  exists c. split; [exact HS|]. split; [exact HR|]. split; [exact HA|]. split; [exact HF|]. split; [exact HC|]. split; [exact Hd|]. split; [exact Hl|].
  destruct HR as [Rr Rw Rg _ Rp].
  destruct (finished_trajectories _ _ _ _ _ _ _ HS HF Rr Rw _ _ HC Ct Ht) as (D1 & t & _ & _ & _ & Et & Ft). rewrite Tf in Ft.
  destruct (w_hist w0) as [h0|] eqn:Eh0; [clear Hh|congruence].
  destruct (finished_histogram _ _ _ _ _ _ _ HS HF Rr Rw Rg _ _ _ _ HC Ct Ch Eh0) as (D2 & h & _ & _ & Eh & _ & _ & files & Wf & Wh). rewrite Hfn in Wh.
  unfold written_ok in Wf. rewrite Hws in Wf. subst files. cbn [app] in Wh.
  destruct (finished_surfaces _ _ _ _ _ _ _ HS HF Rr Rw Rg _ _ _ _ _ HC Ct Ch Cf Eh0 Hf) as (D3 & counts & h' & f & F & _ & _ & _ & Eh' & _ & _ & _ & Ef & _ & Wr & Pl & Df').
  rewrite Ff, Fw in Wr. rewrite Fp in Pl. cbn [moments map app] in Wr.
  destruct (Df' od _ _ Cd Hdf) as (r & Er & Rf). cbv zeta in Rf. rewrite Df in Rf. clear Df'.
  rewrite Hpd in Rp. destruct (finished_distribution _ _ _ _ _ _ _ HS HF Rr Rw Rg _ _ _ _ HC Cp Hpd Rp) as (D4 & r' & rows & _ & _ & Ep & Sp & Rf').
  rewrite Pf, Ps, Pw in Rf'.
  pose proof (run_grows0 _ plain_files _ _ _ _ _ _ HS HF) as G.
  assert (Ebd : w_bd w = None).
  { pose proof (gr_bd _ _ G) as X. rewrite Hbd in X. destruct (w_bd w); [destruct X|reflexivity]. }
  split.
  { unfold output_files, output_parts, stats_files, trajectory_files, histogram_files, fes_files, plot_files, delta_f_files, distribution_files.
    rewrite Ebd, Et, Ft, Eh, Ef, Er, Rf, Ep, Rf', Wh, Wr, Pl, Tn, Hn, Fn, Dn, Pn, Hl. unfold traj_files. reflexivity. }
  split; [intros fa Hfa; rewrite Ef in Hfa; injection Hfa as <-; exact Pl|].
  split; [eauto|]. split; [eauto|]. split; [exists [m1; m2], r; split; [exact Er|reflexivity]|].
  unfold distribution_files. rewrite Ep, Rf', Pn. exists [[a]], r'. eexists. exists (map (fun z => Fin (IZR z)) (rows 1)). split; [reflexivity|]. split; [reflexivity|].
  split; [left; reflexivity|]. apply in_or_app. right. apply in_map_iff. exists (rows 1). split; [reflexivity|].
  unfold recorded_file. cbn. left. reflexivity.
Qed.
