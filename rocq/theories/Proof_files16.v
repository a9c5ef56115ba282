(** Statements for Prop_files about the examples of Proof_files11 and Proof_files14 *)
From Coq Require Import Lia Lra Permutation.
From Verif Require Import PyBase Model_xr Model_input Model_dyn Model_bd Model_traj Model_grid Model_hist Model_histaction Model_fes Model_rec Model_deltaf Model_pdist Model_potgrid
  Model_setup Model_main Spec_input Spec_rng Spec_main Spec_whole Model_files Spec_files Proof_whole7
  Proof_files Proof_files2 Proof_files8 Proof_files9 Proof_files10 Proof_files11 Proof_files14.
Open Scope string_scope.
Open Scope Z_scope.
Open Scope list_scope.

Lemma columns_refuted : exists e fe cv secs acts n w0 w c name lines k row, set_up e cv secs acts n w0 /\ array_shapes e w0 /\
  main e cv (Some (Ok secs)) = Finished w /\ parse_all cv secs = Ok c /\ In (name, Some lines) (output_files e fe c w) /\
  names_columns lines k /\ In (Row row) lines /\ length row <> k.
Proof.
  destruct all_outputs_files as (w0 & w & c & HS & _ & HA & HF & HC & _ & _ & _ & _ & _ & _ & _ & states & r & lines & row & Ep & Es & Hin & Hrow).
  exists shaped_env, plain_files, demo_conv, all_outputs, all_actions, 4, w0, w, c, "dist", lines, 1%nat, row.
  split; [exact HS|]. split; [exact HA|]. split; [exact HF|]. split; [exact HC|].
  split; [unfold output_files, output_parts; cbn [concat]; rewrite !in_app_iff; do 6 right; left; exact Hin|].
  assert (Ns : states <> []) by (intro X; rewrite X in Es; discriminate).
  destruct (run_pd_file _ _ _ _ _ _ _ _ _ HS HF HC _ _ _ _ HA Ep Ns Hin) as (N & H).
  rewrite Es in N, H. split; [exact N|]. split; [exact Hrow|]. rewrite (H _ Hrow). discriminate.
Qed.
Lemma outputs_case : exists w c, writable plain_files /\ main shaped_env demo_conv (Some (Ok all_outputs)) = Finished w /\ parse_all demo_conv all_outputs = Ok c /\
  NoDup (map fst (output_files shaped_env plain_files c w)) /\ length (output_files shaped_env plain_files c w) = 8%nat /\
  (forall fa s f, w_fes w = Some fa -> In (s, f) (fa_plotted fa) -> plottable plain_files (stepped (file_opt (opts (c_fes c)) "plot-filename") s)).
Proof.
  destruct all_outputs_files as (w0 & w & c & HS & _ & HA & HF & HC & _ & _ & N & P & _). exists w, c. split; [intro; reflexivity|]. split; [exact HF|]. split; [exact HC|].
  split; [rewrite N; repeat constructor; cbn; intuition discriminate|]. split; [rewrite <- (map_length fst), N; reflexivity|].
  intros fa s f Hf Hin. rewrite (P fa Hf) in Hin. destruct Hin.
Qed.
Lemma grids_case : exists w0 w c h counts f v, set_up shaped_env demo_conv all_outputs all_actions 4 w0 /\
  main shaped_env demo_conv (Some (Ok all_outputs)) = Finished w /\ parse_all demo_conv all_outputs = Ok c /\ pot_ndim (ld_pot (w_ld w)) = 1%nat /\
  w_hist w = Some h /\ In (None, counts) (ha_written h) /\ w_fes w = Some f /\ In (None, v) (fa_written f).
Proof.
  destruct all_outputs_files as (w0 & w & c & HS & _ & HA & HF & HC & Hd & _ & N & P & (h & counts & Eh & Wh) & (f & v & Ef & Wf) & _).
  pose proof (run_grows0 _ plain_files _ _ _ _ _ _ HS HF) as G. exists w0, w, c, h, counts, f, v. split; [exact HS|]. split; [exact HF|]. split; [exact HC|].
  split; [now rewrite (Proof_files4.gr_ld _ _ G)|]. split; [exact Eh|]. split; [rewrite Wh; left; reflexivity|]. split; [exact Ef|]. rewrite Wf. left. reflexivity.
Qed.
Lemma grids_refuted : exists e fe cv secs w c h counts, writable fe /\ main e cv (Some (Ok secs)) = Finished w /\ parse_all cv secs = Ok c /\
  w_hist w = Some h /\ In (None, counts) (ha_written h) /\
  main_files e fe cv (Some (Ok secs)) [] [] = ([], [], Finished w).
Proof.
  destruct run3 as (w & c & h & counts & HF & HC & Hd & O & Eh & Wh & M). exists env3, plain_files, conv3, demo3, w, c, h, counts. split; [intro; reflexivity|].
  split; [exact HF|]. split; [exact HC|]. split; [exact Eh|]. split; [rewrite Wh; left; reflexivity|exact M].
Qed.
Lemma grids3_case : exists w c, main env3 conv3 (Some (Ok demo3)) = Finished w /\ parse_all conv3 demo3 = Ok c /\ pot_ndim (ld_pot (w_ld w)) = 3%nat /\
  output_files env3 plain_files c w = [("hist", None)] /\ histogram_files env3 plain_files c w = [("hist", None)].
Proof.
  destruct run3 as (w & c & h & counts & HF & HC & Hd & O & Eh & Wh & M). exists w, c. split; [exact HF|]. split; [exact HC|]. split; [exact Hd|]. split; [exact O|].
  unfold output_files, output_parts in O. cbn [concat] in O.
  assert (L : length (histogram_files env3 plain_files c w) = 1%nat) by (unfold histogram_files; rewrite Eh, map_length, Wh; reflexivity).
  destruct (histogram_files env3 plain_files c w) as [|x [|? ?]]; try discriminate L.
  assert (In x [("hist", None : option (list line))]) as [<-|[]]; [|reflexivity]. rewrite <- O, !in_app_iff. do 2 right. left. left. reflexivity.
Qed.
Lemma kept_case : (exists c o w0, read_input demo_conv (Some (Ok all_outputs)) = Ok c /\ c_fes c = Some o /\ opt_set o "plot-filename" = false /\
    setup_dynamics shaped_env c = Ok w0 /\ (pot_ndim (ld_pot (w_ld w0)) <= 2)%nat) /\
  exists fs' w, main_files shaped_env plain_files demo_conv (Some (Ok all_outputs)) [("hist", [Text "old"]); ("dist", [Text "older"])] [] = (fs', [], Finished w).
Proof.
  split.
  - assert (P : exists c, parse_all demo_conv all_outputs = Ok c /\ exists o, c_fes c = Some o /\ opt_set o "plot-filename" = false).
    { eexists. split; [Proof_main3.parse_demo|]. eexists. repeat split. }
    destruct P as (c & HC & o & Ho & Hp). destruct all_outputs_case as (w0 & (c' & w1 & HC' & H1 & Ha & _) & _ & _ & Hd & _).
    rewrite HC in HC'. apply Proof_main2.ok_inj in HC'. subst c'. exists c, o, w1. split; [exact HC|]. split; [exact Ho|]. split; [exact Hp|]. split; [exact H1|].
    destruct (Proof_whole2.set_up_built _ _ _ _ _ H1 Ha) as (_ & L & _). rewrite <- L, Hd. lia.
  - destruct outputs_case as (w & c & Hw & HF & HC & HD & _ & HP).
    destruct (Proof_files6.main_writes _ _ _ _ _ _ [("hist", [Text "old"]); ("dist", [Text "older"])] [] Hw HF HC HD HP) as (fs' & E & _). eauto.
Qed.
