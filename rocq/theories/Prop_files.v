(** Output files, properties C48, C49, C55, C57, C60, C61 *)
From Verif Require Import PyBase Model_xr Model_input Model_dyn Model_bd Model_traj Model_grid Model_hist Model_histaction Model_fes Model_rec
  Model_setup Model_main Model_files Spec_input Spec_rng Spec_main Spec_whole Spec_files
  Proof_ordinal Proof_files Proof_files6 Proof_files7 Proof_files8 Proof_files9 Proof_files10 Proof_files12 Proof_files13 Proof_files14
  Proof_files15 Proof_files16.
Open Scope string_scope.
Open Scope Z_scope.
Open Scope list_scope.

(** C48: an existing file d/f is moved to the first free d/bck.n.f, and nothing else changes *)
Theorem C48_backup :
  forall fe fs d f content, writable fe -> directory d -> no_slash f -> fs_get fs (d ++ f) = Some content ->
  exists n fs', backup_if_exists fe fs (d ++ f) = (fs', Ok tt) /\
    fs_get fs (d ++ bck n f) = None /\ (forall j, (j < n)%nat -> fs_get fs (d ++ bck j f) <> None) /\
    fs_get fs' (d ++ bck n f) = Some content /\ fs_get fs' (d ++ f) = None /\
    unchanged_except [(d ++ f)%string; (d ++ bck n f)%string] fs fs'.
Proof. exact backup_ok. Qed.
Print Assumptions C48_backup.

Theorem C48_initialize :
  forall fe fs name fields constants, writable fe -> fields <> [] ->
  exists fs', initialize_file fe fs name fields constants = (fs', Ok tt) /\
    fs_get fs' name = Some (header_of fields constants) /\
    (forall f, f <> name -> fs_get fs f <> None -> fs_get fs' f = fs_get fs f) /\
    match fs_get fs name with
    | None => unchanged_except [name] fs fs'
    | Some content => exists b, fs_get fs b = None /\ fs_get fs' b = Some content /\ unchanged_except [name; b] fs fs'
    end.
Proof. exact initialize_ok. Qed.
Print Assumptions C48_initialize.

(** Full statement: after any run everything that was in a file before is in a file.  It is false for runs with plots.
    Without plots, and in at most two dimensions, it holds for every run, also for those that fail at any point
    (also if files cannot be written). *)
Theorem C48_run_partial :
  forall e fe cv file,
  (forall c, read_input cv file = Ok c -> forall o, c_fes c = Some o -> opt_set o "plot-filename" = false) ->
  forall fs stdin fs' stdin' o,
  (forall c w0, read_input cv file = Ok c -> setup_dynamics e c = Ok w0 -> (pot_ndim (ld_pot (w_ld w0)) <= 2)%nat) ->
  main_files e fe cv file fs stdin = (fs', stdin', o) ->
  forall content, available fs content -> available fs' content.
Proof. exact run_keeps_exact. Qed.
Print Assumptions C48_run_partial.

(** in any dimension lines may be added to the content, but none is lost *)
Theorem C48_run_prefix_partial :
  forall e fe cv file,
  (forall c, read_input cv file = Ok c -> forall o, c_fes c = Some o -> opt_set o "plot-filename" = false) ->
  forall fs stdin fs' stdin' o, main_files e fe cv file fs stdin = (fs', stdin', o) ->
  forall content, available_prefix fs content -> available_prefix fs' content.
Proof. exact run_keeps_prefix. Qed.
Print Assumptions C48_run_prefix_partial.

(** a plot overwrites an existing file: nothing of its content is left anywhere *)
Theorem C48_refuted :
  exists e fe cv file fs stdin fs' stdin' w content, writable fe /\ available fs content /\
  main_files e fe cv file fs stdin = (fs', stdin', Finished w) /\ ~ available_prefix fs' content.
Proof. exact run_loses. Qed.
Print Assumptions C48_refuted.

Example C48_case : (exists c o w0, read_input demo_conv (Some (Ok all_outputs)) = Ok c /\ c_fes c = Some o /\ opt_set o "plot-filename" = false /\
    setup_dynamics shaped_env c = Ok w0 /\ (pot_ndim (ld_pot (w_ld w0)) <= 2)%nat) /\
  exists fs' w, main_files shaped_env plain_files demo_conv (Some (Ok all_outputs)) [("hist", [Text "old"]); ("dist", [Text "older"])] [] = (fs', [], Finished w).
Proof. exact kept_case. Qed.
Example C48_backup_case :
  backup_if_exists plain_files [("out/hist", [Text "old"]); ("out/bck.0.hist", [Text "older"])] "out/hist" =
    ([("out/bck.1.hist", [Text "old"]); ("out/bck.0.hist", [Text "older"])], Ok tt).
Proof. reflexivity. Qed.

(** C49.  Full statement: in all output files every row has as many columns as the header names.  It is false for two
    files, and proved for the statistics of the birth-death, the trajectories, the histograms and the free energies. *)
Theorem C49_columns_partial :
  forall e fe cv secs acts n w0 w c, set_up e cv secs acts n w0 -> main e cv (Some (Ok secs)) = Finished w ->
  parse_all cv secs = Ok c -> rng_ok (e_rng e) -> w_ps w0 <> [] ->
  pot_bc (ld_pot (w_ld w0)) = None \/ length (pot_ranges (ld_pot (w_ld w0))) = pot_ndim (ld_pot (w_ld w0)) ->
  forall name lines, In (name, Some lines) (stats_files e fe c w ++ trajectory_files e c w ++ histogram_files e fe c w ++ fes_files e fe c w) ->
  exists k, names_columns lines k /\ has_columns lines k.
Proof. exact run_named. Qed.
Print Assumptions C49_columns_partial.

(** delta-f: the header of n states names n - 1 columns, the rows have n (the time comes first) *)
Theorem C49_delta_f_exact :
  forall e fe cv secs acts n w0 w c, set_up e cv secs acts n w0 -> main e cv (Some (Ok secs)) = Finished w ->
  parse_all cv secs = Ok c ->
  forall name lines masks r, array_shapes e w0 -> w_df w = Some (masks, r) -> In (name, Some lines) (delta_f_files e fe c w) ->
  names_columns lines (length masks - 1) /\ has_columns lines (length masks).
Proof. exact run_df_file. Qed.
Print Assumptions C49_delta_f_exact.

(** particle-distribution: the header of n states names n columns, the rows have n + 1 *)
Theorem C49_distribution_exact :
  forall e fe cv secs acts n w0 w c, set_up e cv secs acts n w0 -> main e cv (Some (Ok secs)) = Finished w ->
  parse_all cv secs = Ok c ->
  forall name lines states r, array_shapes e w0 -> w_pd w = Some (states, r) -> states <> [] ->
  In (name, Some lines) (distribution_files e fe c w) ->
  names_columns lines (length states) /\ has_columns lines (S (length states)).
Proof. exact run_pd_file. Qed.
Print Assumptions C49_distribution_exact.

Theorem C49_refuted :
  exists e fe cv secs acts n w0 w c name lines k row, set_up e cv secs acts n w0 /\ array_shapes e w0 /\
  main e cv (Some (Ok secs)) = Finished w /\ parse_all cv secs = Ok c /\ In (name, Some lines) (output_files e fe c w) /\
  names_columns lines k /\ In (Row row) lines /\ length row <> k.
Proof. exact columns_refuted. Qed.
Print Assumptions C49_refuted.

Example C49_case : exists w0 w c h counts f v, set_up shaped_env demo_conv all_outputs all_actions 4 w0 /\
  main shaped_env demo_conv (Some (Ok all_outputs)) = Finished w /\ parse_all demo_conv all_outputs = Ok c /\ pot_ndim (ld_pot (w_ld w)) = 1%nat /\
  w_hist w = Some h /\ In (None, counts) (ha_written h) /\ w_fes w = Some f /\ In (None, v) (fa_written f).
Proof. exact grids_case. Qed.

(** C55 *)
Theorem C55_ordinals :
  forall n, 0 <= n -> exists suffix, make_ordinal n = (string_of_Z n ++ suffix)%string /\ english_suffix (string_of_Z n) suffix.
Proof. exact ordinal_ok. Qed.
Print Assumptions C55_ordinals.
Example C55_case : map make_ordinal [1; 2; 3; 4; 11; 12; 13; 21; 100; 101; 111; 112; 122; 1013] =
  ["1st"; "2nd"; "3rd"; "4th"; "11th"; "12th"; "13th"; "21st"; "100th"; "101st"; "111th"; "112th"; "122nd"; "1013th"].
Proof. reflexivity. Qed.

(** C57.  Full statement: a run that can be completed is completed without input from the terminal.  It is false for
    plots at intermediate steps if the name has an extension: "fes.png" becomes "fes.png_500". *)
Theorem C57_plain_names_partial :
  forall e fe cv secs c w fs stdin, writable fe -> In "png" (fe_formats fe) -> main e cv (Some (Ok secs)) = Finished w ->
  parse_all cv secs = Ok c ->
  has_char "." (after_last "/" (file_opt (opts (c_fes c)) "plot-filename")) = false ->
  exists fs', main_files e fe cv (Some (Ok secs)) fs stdin = (fs', stdin, Finished w).
Proof. exact plain_run. Qed.
Print Assumptions C57_plain_names_partial.

(** in general the program asks once for every plot in a format that is not supported: it finishes if the answers (empty lines)
    are there, and ends with a traceback if there are too few *)
Theorem C57_answers_exact :
  forall e fe cv secs c w fs rest n, writable fe -> main e cv (Some (Ok secs)) = Finished w -> parse_all cv secs = Ok c ->
  unsaved fe (plots e c w) n ->
  (exists fs', main_files e fe cv (Some (Ok secs)) fs (repeat "" n ++ rest) = (fs', rest, Finished w)) /\
  forall k, (k < n)%nat -> exists fs', main_files e fe cv (Some (Ok secs)) fs (repeat "" k) = (fs', [], Traceback EOFError).
Proof. exact answered. Qed.
Print Assumptions C57_answers_exact.

Theorem C57_stepped_name_exact :
  forall name k, extension name <> "" -> extension (stepped name (Some k)) = (extension name ++ "_" ++ string_of_Z k)%string.
Proof. exact stepped_extension. Qed.
Print Assumptions C57_stepped_name_exact.

Theorem C57_refuted :
  exists e fe cv secs w, writable fe /\ main e cv (Some (Ok secs)) = Finished w /\
  exists fs', main_files e fe cv (Some (Ok secs)) [] [] = (fs', [], Traceback EOFError).
Proof. exact plot_stops. Qed.
Print Assumptions C57_refuted.

Example C57_case : exists w c F2 F3, main shaped_env demo_conv (Some (Ok plot_demo)) = Finished w /\ parse_all demo_conv plot_demo = Ok c /\
  plots shaped_env c w = [("fes.png_4", F2); ("fes.png", F3)] /\ unsaved plain_files (plots shaped_env c w) 1.
Proof. exact plot_run. Qed.

(** C60.  Full statement: every histogram and free energy file shows the values of all bins.  It is false in three
    dimensions, and proved in one and two dimensions. *)
Theorem C60_histogram_partial :
  forall e fe cv secs acts n w0 w c, set_up e cv secs acts n w0 -> main e cv (Some (Ok secs)) = Finished w ->
  parse_all cv secs = Ok c ->
  forall h s counts, w_hist w = Some h -> (pot_ndim (ld_pot (w_ld w)) <= 2)%nat -> In (s, counts) (ha_written h) ->
  exists lines, In (stepped (file_opt (opts (c_histogram c)) "filename") s, Some lines) (histogram_files e fe c w) /\
    shows (h_edges (ha_hist h)) (map (fun k => Fin (INR k)) counts) lines.
Proof. exact run_shows_hist. Qed.
Print Assumptions C60_histogram_partial.

Theorem C60_fes_partial :
  forall e fe cv secs acts n w0 w c, set_up e cv secs acts n w0 -> main e cv (Some (Ok secs)) = Finished w ->
  parse_all cv secs = Ok c ->
  forall h f s fes, w_hist w = Some h -> w_fes w = Some f -> (pot_ndim (ld_pot (w_ld w)) <= 2)%nat -> In (s, fes) (fa_written f) ->
  exists lines, In (stepped (file_opt (opts (c_fes c)) "filename") s, Some lines) (fes_files e fe c w) /\
    shows (h_edges (ha_hist h)) fes lines.
Proof. exact run_shows_fes. Qed.
Print Assumptions C60_fes_partial.

Example C60_case : exists w0 w c h counts f v, set_up shaped_env demo_conv all_outputs all_actions 4 w0 /\
  main shaped_env demo_conv (Some (Ok all_outputs)) = Finished w /\ parse_all demo_conv all_outputs = Ok c /\ pot_ndim (ld_pot (w_ld w)) = 1%nat /\
  w_hist w = Some h /\ In (None, counts) (ha_written h) /\ w_fes w = Some f /\ In (None, v) (fa_written f).
Proof. exact grids_case. Qed.

(** in three dimensions no file is written: a run with only such outputs leaves an empty directory empty *)
Theorem C60_three_dimensions_exact :
  forall e fe cv secs c w stdin, main e cv (Some (Ok secs)) = Finished w -> parse_all cv secs = Ok c ->
  pot_ndim (ld_pot (w_ld w)) = 3%nat ->
  (forall name lines, In (name, lines) (output_files e fe c w) -> In (name, lines) (histogram_files e fe c w ++ fes_files e fe c w)) ->
  main_files e fe cv (Some (Ok secs)) [] stdin = ([], stdin, Finished w).
Proof. exact run_writes_nothing. Qed.
Print Assumptions C60_three_dimensions_exact.

Theorem C60_refuted :
  exists e fe cv secs w c h counts, writable fe /\ main e cv (Some (Ok secs)) = Finished w /\ parse_all cv secs = Ok c /\
  w_hist w = Some h /\ In (None, counts) (ha_written h) /\
  main_files e fe cv (Some (Ok secs)) [] [] = ([], [], Finished w).
Proof. exact grids_refuted. Qed.
Print Assumptions C60_refuted.

Example C60_three_case : exists w c, main env3 conv3 (Some (Ok demo3)) = Finished w /\ parse_all conv3 demo3 = Ok c /\ pot_ndim (ld_pot (w_ld w)) = 3%nat /\
  output_files env3 plain_files c w = [("hist", None)] /\ histogram_files env3 plain_files c w = [("hist", None)].
Proof. exact grids3_case. Qed.

(** C61: if the names of the files are different, a finished run leaves exactly the tables, grids and plots of the recorded data, whatever was
    in the directory before, and does not change any other file *)
Theorem C61_files :
  forall e fe cv secs c w fs stdin, writable fe -> main e cv (Some (Ok secs)) = Finished w -> parse_all cv secs = Ok c ->
  NoDup (map fst (output_files e fe c w)) ->
  (forall fa s f, w_fes w = Some fa -> In (s, f) (fa_plotted fa) -> plottable fe (stepped (file_opt (opts (c_fes c)) "plot-filename") s)) ->
  exists fs', main_files e fe cv (Some (Ok secs)) fs stdin = (fs', stdin, Finished w) /\
    (forall name lines, In (name, Some lines) (output_files e fe c w) -> fs_get fs' name = Some lines) /\
    (forall f content, fs_get fs f = Some content -> ~ In f (map fst (output_files e fe c w)) -> fs_get fs' f = Some content).
Proof. exact main_writes. Qed.
Print Assumptions C61_files.

Example C61_case : exists w c, writable plain_files /\ main shaped_env demo_conv (Some (Ok all_outputs)) = Finished w /\ parse_all demo_conv all_outputs = Ok c /\
  NoDup (map fst (output_files shaped_env plain_files c w)) /\ length (output_files shaped_env plain_files c w) = 8%nat /\
  (forall fa s f, w_fes w = Some fa -> In (s, f) (fa_plotted fa) -> plottable plain_files (stepped (file_opt (opts (c_fes c)) "plot-filename") s)).
Proof. exact outputs_case. Qed.
