(** Grid files in three dimensions (C60) *)
From Coq Require Import Lia Lra.
From Verif Require Import PyBase Model_xr Model_input Model_dyn Model_bd Model_traj Model_grid Model_hist Model_histaction Model_fes Model_rec Model_deltaf Model_pdist Model_pot Model_potgrid
  Model_setup Model_main Spec_input Spec_rng Spec_times Spec_ld Spec_grid Spec_pot Spec_setup Spec_fes Proof_base Proof_grid Proof_setup2 Proof_input Proof_pot Proof_hist
  Model_files Spec_main Spec_whole Spec_histact Spec_files Proof_main Proof_main2 Proof_main3 Proof_setup Proof_setupex Proof_whole Proof_whole2 Proof_whole3 Proof_whole4 Proof_whole5 Proof_whole7
  Proof_files Proof_files2 Proof_files3 Proof_files4 Proof_files5 Proof_files6 Proof_files7 Proof_files8 Proof_files9 Proof_files10 Proof_files12.
Open Scope string_scope.
Open Scope Z_scope.
Open Scope list_scope.
Ltac Zify.zify_post_hook ::= idtac.

Lemma no_writes fe ops stdin : Forall (fun op => exists n, op = OWrite n None) ops -> apply_ops fe ops ([], stdin) = ([], stdin, Ok tt).
Proof. induction 1 as [|op ops (n & ->) _ IH]; [reflexivity|]. cbn [apply_ops apply_op]. cbn. exact IH. Qed.

Lemma run_writes_nothing e fe cv secs c w stdin : main e cv (Some (Ok secs)) = Finished w -> parse_all cv secs = Ok c ->
  pot_ndim (ld_pot (w_ld w)) = 3%nat ->
  (forall name lines, In (name, lines) (output_files e fe c w) -> In (name, lines) (histogram_files e fe c w ++ fes_files e fe c w)) ->
  main_files e fe cv (Some (Ok secs)) [] stdin = ([], stdin, Finished w).
Proof.
  intros Hm Hc Hd Ho. pose proof (ops_outcome e fe cv (Some (Ok secs))) as Eo. unfold main_files.
  destruct (main_ops e fe cv (Some (Ok secs))) as [ops o] eqn:Em. cbn [snd] in Eo. rewrite Hm in Eo. subst o.
  apply ops_shape in Em. destruct Em as [(_ & N)|(c' & w0 & Hc' & E0 & [(_ & N)|(acts & w1 & w' & ops1 & ops2 & E1 & -> & In1 & G & T & Ew)])];
    [destruct (N w eq_refl)|destruct (N w eq_refl)|].
  cbn [read_input bind] in Hc'. rewrite Hc in Hc'. apply ok_inj in Hc'. subst c'. rewrite <- (Ew w eq_refl) in *. clear Ew w'.
  destruct G as (G & _ & _).
  assert (HD : hist_dims e w) by (eapply hist_dims_grow; [exact G|eapply set_up_hist_dims; eassumption]).
  assert (HD1 : hist_dims e w1) by (eapply set_up_hist_dims; eassumption).
  assert (Hd1 : pot_ndim (ld_pot (w_ld w1)) = 3%nat) by (rewrite <- (gr_ld _ _ G); exact Hd).
  assert (NN : forall w, hist_dims e w -> pot_ndim (ld_pot (w_ld w)) = 3%nat -> forall name lines, In (name, lines) (histogram_files e fe c w ++ fes_files e fe c w) -> lines = None).
  { clear. intros w HD Hd name lines Hin. apply in_app_or in Hin. unfold histogram_files, fes_files in Hin. destruct (w_hist w) as [h|] eqn:Eh; [|destruct Hin as [[]|[]]].
    pose proof (HD h Eh) as L. destruct Hin as [Hin|Hin].
    - apply in_map_iff in Hin. destruct Hin as (sd & Hin & _). injection Hin as _ <-. apply hist_lines_3d. lia.
    - destruct (w_fes w); [|destruct Hin]. apply in_map_iff in Hin. destruct Hin as (sd & Hin & _). injection Hin as _ <-. apply fes_lines_3d. lia. }
  pose proof (NN w HD Hd) as N.
  assert (S : forall n lines, ~ In (n, Some lines) (output_files e fe c w)).
  { intros n lines Hin. apply Ho, N in Hin. discriminate. }
  assert (TT : forall n, ~ In n (map fst (tables e fe c w))).
  { intros n Hin. apply in_map_iff in Hin. destruct Hin as ([n' l] & <- & Hin).
    assert (exists l', l = Some l') as (l' & ->).
    { unfold tables in Hin. rewrite !in_app_iff in Hin. unfold stats_files, trajectory_files, delta_f_files, distribution_files, table in Hin.
      destruct Hin as [Hin|[Hin|[Hin|Hin]]].
      - destruct (w_bd w) as [[[[par g] st] o]|]; [|destruct Hin]. destruct (bd_to_file par); [|destruct Hin]. destruct Hin as [Hin|[]]. injection Hin as _ <-. eauto.
      - destruct (w_traj w) as [t|]; [|destruct Hin]. destruct (tr_files t); [|destruct Hin]. apply in_map_iff in Hin. destruct Hin as (? & Hin & _). injection Hin as _ <-. eauto.
      - destruct (w_df w) as [[m r]|]; [|destruct Hin]. destruct (rc_file r); [|destruct Hin]. destruct Hin as [Hin|[]]. injection Hin as _ <-. eauto.
      - destruct (w_pd w) as [[m r]|]; [|destruct Hin]. destruct (rc_file r); [|destruct Hin]. destruct Hin as [Hin|[]]. injection Hin as _ <-. eauto. }
    apply (S n' l'). unfold tables in Hin. unfold output_files, output_parts. cbn [concat]. rewrite !in_app_iff in *. tauto. }
  assert (F2 : Forall (fun op => exists n, op = OWrite n None) ops2).
  { eapply Forall_impl; [|exact T]. intros op Hop. destruct op as [n f k|n rows|n l|n f]; cbn [tame] in Hop; [destruct Hop|destruct (TT _ Hop)| |].
    - destruct Hop as (_ & Hop & _). exists n. now rewrite (Hop Hd).
    - exfalso. destruct Hop as (s & fa & Ef & _ & Hin & ->). apply (S (plot_file (stepped (file_opt (opts (c_fes c)) "plot-filename") s)) [Image f]).
      unfold output_files, output_parts, plot_files. cbn [concat]. rewrite Ef, !in_app_iff. do 4 right. left. apply in_map_iff. exists (s, f). auto. }
  assert (F1 : ops1 = []).
  { destruct ops1 as [|op ops1]; [reflexivity|exfalso]. unfold inits in In1. inversion In1 as [|? [n l] ? T2 (f & k & _ & Et) _ E3 E4]. subst. cbn [fst snd] in Et. subst l.
    assert (Hin : In (n, Some (header f k)) (output_files e fe c w1)) by (rewrite <- E4; left; reflexivity).
    assert (Q : In (n, Some (header f k)) (tables e fe c w1) \/ In (n, Some (header f k)) (histogram_files e fe c w1 ++ fes_files e fe c w1) \/ In (n, Some (header f k)) (plot_files e c w1)).
    { unfold output_files, output_parts in Hin. cbn [concat] in Hin. unfold tables. rewrite !in_app_iff in *. tauto. }
    destruct Q as [Q|[Q|Q]].
    - apply (in_map fst) in Q. rewrite <- (tables_names _ _ _ _ _ G) in Q. exact (TT _ Q).
    - apply (NN w1 HD1 Hd1) in Q. discriminate.
    - unfold plot_files in Q. destruct (w_fes w1); [|destruct Q]. apply in_map_iff in Q. destruct Q as (sd & Q & _). injection Q as _ Q. unfold header in Q. destruct f; discriminate Q. }
  subst ops1. cbn [app]. now rewrite (no_writes _ _ _ F2).
Qed.

Definition actions3 : list action := [ALd; ATrajectories; AHistogram].
Lemma setup_histogram_3 o t : v_hist_bounds (get_dict o "min") = Ok [-2; -2; -2]%R -> v_hist_bounds (get_dict o "max") = Ok [2; 2; 2]%R -> get_dict o "bins" = VInts [1; 1; 1] ->
  get_dict o "write-stride" = VNone -> (exists s, v_opt_int (get_dict o "stride") = Ok s) -> (exists r, v_opt_ints (get_dict o "reset") = Ok r) ->
  exists h, setup_histogram o 3 t = Ok h.
Proof.
  intros H1 H2 H3 H4 (s & H5) (r & H6). unfold setup_histogram. cbn [Nat.eqb]. rewrite H1, H2, H3, H4, H5, H6. cbn [v_ints v_opt_int bind combine].
  unfold ha_init. cbn [map length Nat.eqb negb].
  match goal with |- context [hist_init ?a ?b] => destruct (hist_init_spec a b) as (h & -> & _) end; [reflexivity|repeat constructor|repeat constructor; cbn; lra|].
  cbn [bind truthyZ andb]. eauto.
Qed.
Lemma case3 : exists w0 ot oh c, parse_all conv3 demo3 = Ok c /\ c_trajectories c = Some ot /\ c_histogram c = Some oh /\ c_fes c = None /\
  set_up env3 conv3 demo3 actions3 4 w0 /\ runnable env3 w0 /\ pot_ndim (ld_pot (w_ld w0)) = 3%nat /\ w_hist w0 <> None /\ w_traj w0 <> None /\ w_bd w0 = None /\ w_fes w0 = None /\ w_df w0 = None /\ w_pd w0 = None /\
  opt_set ot "filename" = false /\ opt_set oh "filename" = true /\ opt_int oh "write-stride" = None /\ file_opt (opts (c_histogram c)) "filename" = "hist".
Proof.
  assert (P : exists c, parse_all conv3 demo3 = Ok c /\ exists w1 acts w0, setup_dynamics env3 c = Ok w1 /\ setup_actions env3 c w1 = Ok (acts, w0) /\ acts = actions3 /\
    assoc "n_steps" (c_ld c) = Some (VInt 4) /\ runnable env3 w0 /\ (pot_ndim (ld_pot (w_ld w0)) = 3%nat /\ w_hist w0 <> None /\ w_traj w0 <> None /\ w_bd w0 = None /\ w_fes w0 = None /\ w_df w0 = None /\ w_pd w0 = None) /\
    c_fes c = None /\
    exists ot oh, c_trajectories c = Some ot /\ c_histogram c = Some oh /\
      opt_set ot "filename" = false /\ opt_set oh "filename" = true /\ opt_int oh "write-stride" = None /\ file_opt (opts (c_histogram c)) "filename" = "hist").
  2:{ destruct P as (c & Hp & w1 & acts & w0 & E0 & E1 & -> & Hn & R & (Nd & Nh & Nt & Nb & Nf & Ndf & Npd) & Nc & ot & oh & Ct & Ch & Q). exists w0, ot, oh, c.
      repeat (split; [assumption|]). split; [exists c, w1; auto|]. repeat (split; [assumption|]). auto. }
  eexists. split; [parse_demo|].
  match goal with |- exists w1 acts w0, setup_dynamics _ ?c = _ /\ _ =>
    assert (Q : exists w1, setup_dynamics env3 c = Ok w1 /\ pot_ndim (ld_pot (w_ld w1)) = 3%nat /\ length (w_ps w1) = 4%nat /\ pot_bc (ld_pot (w_ld w1)) = None /\
      w_bd w1 = None /\ w_pd w1 = None /\ w_fes w1 = None /\ w_df w1 = None) end.
  { destruct (coefficient_file [([0; 0; 0]%nat, 0, []); ([2; 0; 0]%nat, 1, [])]%R 3) as (co & Ec & Sh & _); [lia|cbn; lia|repeat constructor|intros l l' [<-|[<-|[]]] [<-|[<-|[]]]; reflexivity|].
    cbn in Sh. destruct co as [sh fl]. cbn in Sh. subst sh.
    eexists. split.
    { unfold setup_dynamics, setup_potential. cbn [c_potential c_ld c_particles]. 
      cbn - [coefficients_from_file line_numbers map]. change (Pos.to_nat 3) with 3%nat. rewrite Ec.
      change (Pos.to_nat 4) with 4%nat; change (Pos.to_nat 1) with 1%nat. cbn. reflexivity. }
    repeat split. }
  destruct Q as (w1 & E0 & Hd & Hl & Hb & Hbd & Hpd & Hfe & Hdf). exists w1, actions3.
  unfold setup_actions. cbn [c_birth_death c_trajectories c_histogram c_fes c_delta_f c_particle_distribution when bind fst snd].
  match goal with |- context [setup_trajectories ?e ?o ?n] => assert (T : exists t, setup_trajectories e o n = Ok t) by (rewrite Hl; eexists; cbn; reflexivity) end.
  destruct T as (t & Et).
  match goal with |- context [setup_histogram ?o _ _] => destruct (setup_histogram_3 o t) as (h & Eh) end;
    [reflexivity|reflexivity|reflexivity|reflexivity|eexists; reflexivity|eexists; reflexivity|].
  eexists. split; [exact E0|].
  split.
  { rewrite Et. red_world. rewrite Hd, Eh. red_world. reflexivity. }
  split; [reflexivity|]. split; [reflexivity|]. cbn [set_pd set_df set_fes set_hist set_traj w_ld w_ps w_bd w_pd w_df w_hist w_fes w_traj].
  split; [constructor; cbn [set_pd set_df set_fes set_hist set_traj w_ld w_ps w_bd w_pd w_df]|].
  - exact demo_rng_ok.
  - intro X. rewrite X in Hl. discriminate.
  - left. exact Hb.
  - rewrite Hbd. exact I.
  - rewrite Hpd. exact I.
  - split; [repeat (split; [first [assumption | discriminate]|]); assumption|]. split; [reflexivity|]. do 2 eexists. repeat split.
Qed.

Lemma run3 : exists w c h counts, main env3 conv3 (Some (Ok demo3)) = Finished w /\ parse_all conv3 demo3 = Ok c /\ pot_ndim (ld_pot (w_ld w)) = 3%nat /\
  output_files env3 plain_files c w = [("hist", None)] /\ w_hist w = Some h /\ ha_written h = [(None, counts)] /\
  main_files env3 plain_files conv3 (Some (Ok demo3)) [] [] = ([], [], Finished w).
Proof.
  destruct case3 as (w0 & ot & oh & c & HC & Ct & Ch & Cf & HS & HR & Hd & Nh & Nt & Nb & Nf & Ndf & Npd & Ef & Eh & Ew & En).
  destruct (main_total _ _ _ _ _ _ HS HR) as (w & D & HF & _). destruct HR as [Rr Rw Rg _ _].
  destruct (finished_trajectories _ _ _ _ _ _ _ HS HF Rr Rw _ _ HC Ct Nt) as (D1 & t & _ & _ & _ & Et & Ft). rewrite Ef in Ft.
  destruct (w_hist w0) as [h0|] eqn:Eh0; [clear Nh|congruence].
  destruct (finished_histogram _ _ _ _ _ _ _ HS HF Rr Rw Rg _ _ _ _ HC Ct Ch Eh0) as (D2 & h & _ & _ & Ehw & _ & _ & files & Wf & Wh). rewrite Eh in Wh.
  unfold written_ok in Wf. rewrite Ew in Wf. subst files. cbn [app] in Wh.
  pose proof (run_grows0 _ plain_files _ _ _ _ _ _ HS HF) as G.
  pose proof (run_hist_dims env3 plain_files _ _ _ _ _ _ _ HS HF HC) as (HD & L).
  assert (Hd' : pot_ndim (ld_pot (w_ld w)) = 3%nat) by (rewrite (gr_ld _ _ G); exact Hd).
  assert (Ebd : w_bd w = None) by (pose proof (gr_bd _ _ G) as X; rewrite Nb in X; destruct (w_bd w); [destruct X|reflexivity]).
  assert (Efe : w_fes w = None) by (pose proof (gr_fes _ _ G) as X; rewrite Nf in X; destruct (w_fes w); [destruct X|reflexivity]).
  assert (Edf : w_df w = None) by (pose proof (gr_df _ _ G) as X; rewrite Ndf in X; destruct (w_df w); [destruct X|reflexivity]).
  assert (Epd : w_pd w = None) by (pose proof (gr_pd _ _ G) as X; rewrite Npd in X; destruct (w_pd w); [destruct X|reflexivity]).
  exists w, c, h. eexists. split; [exact HF|]. split; [exact HC|]. split; [exact Hd'|].
  assert (O : output_files env3 plain_files c w = [("hist", None)]).
  { unfold output_files, output_parts, stats_files, trajectory_files, histogram_files, fes_files, plot_files, delta_f_files, distribution_files.
    rewrite Ebd, Et, Ft, Ehw, Efe, Edf, Epd, Wh, En. cbn [map concat app fst snd]. rewrite hist_lines_3d; [reflexivity|]. rewrite (HD h Ehw). lia. }
  split; [exact O|]. split; [exact Ehw|]. split; [exact Wh|].
  refine (run_writes_nothing _ _ _ _ _ _ _ HF HC Hd' _). intros name lines Hin. rewrite O in Hin. destruct Hin as [X|[]]. injection X as <- <-.
  unfold histogram_files. rewrite Ehw, Wh, En. left. cbn [map fst snd]. rewrite hist_lines_3d; [reflexivity|]. rewrite (HD h Ehw). lia.
Qed.
