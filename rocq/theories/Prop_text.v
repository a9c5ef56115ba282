(** Numbers and tables as text, properties C90 to C92 *)
From Verif Require Import PyBase Model_xr Model_input Spec_input Model_ini Model_dyn Model_bd Model_grid Model_pot Model_main Model_files Model_text
  Spec_grid Spec_pot Spec_rng Spec_setup Spec_main Spec_whole Spec_files Spec_ini Spec_text
  Proof_files10 Proof_text Proof_text2 Proof_text3 Proof_text4 Proof_text5.
Open Scope string_scope.
Open Scope Z_scope.
Open Scope list_scope.

(** C90: a number in an output file reads as a number that differs from the number written by at most
    half a unit of the last decimal; inf and nan are kept *)
Theorem C90_number :
  forall w p x, moderate x ->
  exists s y, number_text (Fixed w p) x = Ok s /\ float_text s y /\ near p x y /\ (w <= String.length s)%nat.
Proof. exact number_read. Qed.
Print Assumptions C90_number.

(** numbers with at most p decimals are kept as they are *)
Theorem C90_exact :
  forall w p x z, (Rabs x <= 10 ^ 300)%R -> (x * 10 ^ p = IZR z)%R ->
  exists s, number_text (Fixed w p) (Fin x) = Ok s /\ float_text s (Fin x).
Proof. exact number_exact. Qed.
Print Assumptions C90_exact.

(** the order of numbers is kept *)
Theorem C90_ordered :
  forall w p x y s t a b, (Rabs x <= 10 ^ 300)%R -> (Rabs y <= 10 ^ 300)%R -> (x <= y)%R ->
  number_text (Fixed w p) (Fin x) = Ok s -> number_text (Fixed w p) (Fin y) = Ok t ->
  float_text s (Fin a) -> float_text t (Fin b) -> (a <= b)%R.
Proof. exact number_ordered. Qed.
Print Assumptions C90_ordered.

(** columns are aligned as long as the numbers fit the width *)
Theorem C90_aligned :
  forall w p x, (p + 3 <= w)%nat -> (1 <= p)%nat ->
  match x with Fin r => (Rabs r <= 10 ^ (w - p - 2) - 1)%R | _ => True end ->
  exists s, number_text (Fixed w p) x = Ok s /\ String.length s = w.
Proof. exact number_aligned. Qed.
Print Assumptions C90_aligned.

(** different times have different texts if the time step is not below a unit of the last decimal *)
Theorem C90_times_partial :
  forall w p D i j, (0 < D)%R -> (/ 10 ^ p <= D)%R -> i <> j -> (INR i * D <= 10 ^ 300)%R -> (INR j * D <= 10 ^ 300)%R ->
  number_text (Fixed w p) (Fin (INR i * D)) <> number_text (Fixed w p) (Fin (INR j * D)).
Proof. exact times_distinct. Qed.
Print Assumptions C90_times_partial.
(** with smaller time steps they may not *)
Theorem C90_times_refuted :
  exists dt i j, (0 < dt)%R /\ i <> j /\
    number_text (Fixed 14 9) (Fin (INR i * dt)) = number_text (Fixed 14 9) (Fin (INR j * dt)).
Proof. exact times_refuted. Qed.
Print Assumptions C90_times_refuted.

(** the format of the files is the one chosen by the user or %14.9f *)
Theorem C90_formats :
  write_format None = Some (Fixed 14 9) /\ write_format (Some "") = Some (Fixed 14 9) /\ write_format (Some "%.3f") = Some (Fixed 0 3) /\
  stats_format = Some Integer /\ format_of "%8.4g" = None /\ format_of "%08.3f" = None.
Proof. exact default_format. Qed.
Print Assumptions C90_formats.

Example C90_case : number_text (Fixed 14 9) (Fin (-1/3)) = Ok "  -0.333333333".
Proof. exact third_text. Qed.
Example C90_case' :
  number_text (Fixed 14 9) (Fin 20) = Ok "  20.000000000" /\ number_text (Fixed 14 9) (Fin (-1/10^10)) = Ok "  -0.000000000" /\
  number_text (Fixed 14 9) PInf = Ok "           inf" /\
  row_text (Fixed 14 9) [Fin 20; NaN] = Ok "  20.000000000            nan".
Proof. exact whole_text. Qed.

(** C91: tables of numbers below a header can be read back with the accuracy of the format *)
Theorem C91_table :
  forall w p lines k, table_file lines -> has_columns lines k ->
  exists text rows, file_text (Fixed w p) lines = Ok text /\ genfromtxt text = Ok rows /\
    Forall2 (Forall2 (near p)) (file_rows lines) rows.
Proof. exact file_read_fixed. Qed.
Print Assumptions C91_table.

(** so can the trajectories, histograms, free energies, free energy differences and particle
    distributions of every finished run *)
Theorem C91_run :
  forall e fe cv secs acts n (w0 w : world (e_rng e)) c,
  set_up e cv secs acts n w0 -> main e cv (Some (Ok secs)) = Finished w -> parse_all cv secs = Ok c ->
  rng_ok (e_rng e) -> w_ps w0 <> [] ->
  pot_bc (ld_pot (w_ld w0)) = None \/ length (pot_ranges (ld_pot (w_ld w0))) = pot_ndim (ld_pot (w_ld w0)) ->
  array_shapes e w0 -> plain_texts fe ->
  forall name lines width p,
  In (name, Some lines) (trajectory_files e c w ++ histogram_files e fe c w ++ fes_files e fe c w ++
                         delta_f_files e fe c w ++ distribution_files e fe c w) ->
  Forall (Forall moderate) (file_rows lines) ->
  exists text rows, file_text (Fixed width p) lines = Ok text /\ genfromtxt text = Ok rows /\
    Forall2 (Forall2 (near p)) (file_rows lines) rows.
Proof. exact run_read_back. Qed.
Print Assumptions C91_run.

(** the counts in the statistics of the birth-death events can be read back unchanged *)
Theorem C91_statistics :
  forall e fe c (w : world (e_rng e)) name lines, plain_texts fe ->
  (forall par rng0 x y, w_bd w = Some (par, rng0, x, y) -> single_line (fe_array fe (bd_bw par))) ->
  In (name, Some lines) (stats_files e fe c w) ->
  Forall (Forall (fun x => exists n, x = Fin (IZR n) /\ 0 <= n <= 10 ^ 300)) (file_rows lines) ->
  exists text, file_text Integer lines = Ok text /\ genfromtxt text = Ok (file_rows lines).
Proof. exact stats_read_back. Qed.
Print Assumptions C91_statistics.

(** a run with all kinds of output *)
Example C91_case :
  exists w0 w c, set_up shaped_env demo_conv all_outputs all_actions 4 w0 /\ main shaped_env demo_conv (Some (Ok all_outputs)) = Finished w /\
  parse_all demo_conv all_outputs = Ok c /\ rng_ok (e_rng shaped_env) /\ w_ps w0 <> [] /\
  (pot_bc (ld_pot (w_ld w0)) = None \/ length (pot_ranges (ld_pot (w_ld w0))) = pot_ndim (ld_pot (w_ld w0))) /\
  array_shapes shaped_env w0 /\ plain_texts plain_files /\
  map fst (output_files shaped_env plain_files c w) = ["traj.0"; "traj.1"; "traj.2"; "traj.3"; "hist"; "fes"; "delta_f"; "dist"].
Proof. exact run_case. Qed.

(** C92: which rows a table gives *)
Theorem C92_table :
  forall text ls all, text_of ls text -> Forall single_line ls -> Forall2 numbers_line ls all ->
  ((forall r r', In r (rows_in all) -> In r' (rows_in all) -> length r = length r') -> genfromtxt text = Ok (rows_in all)) /\
  ((exists r r', In r (rows_in all) /\ In r' (rows_in all) /\ length r <> length r') -> genfromtxt text = Err ValueError).
Proof. exact genfromtxt_reads. Qed.
Print Assumptions C92_table.
(** every line has a meaning *)
Theorem C92_line : forall line, exists row, numbers_line line row.
Proof. exact line_total. Qed.
Print Assumptions C92_line.

(** a table of orders and coefficients gives the polynomial it lists *)
Theorem C92_coefficients :
  forall text ls all lines n ranges bc, text_of ls text -> Forall single_line ls -> Forall2 numbers_line ls all ->
  rows_in all = map (fun l => map Fin (line_numbers l)) lines ->
  (1 <= n <= 3)%nat -> (2 <= length lines)%nat -> Forall (fun l => length (orders l) = n) lines ->
  (forall l l', In l lines -> In l' lines -> length (snd l) = length (snd l')) ->
  exists coeffs pot, coefficients_from_text text n = Some (Ok coeffs) /\ poly_init coeffs ranges bc = Ok pot /\
    pot_ndim pot = n /\ forall pos, length pos = n ->
      pot_energy pot pos = nsum (map (fun d => S (highest lines d)) (seq 0 n))
        (fun idx => match listed lines idx with Some v => v | None => 0 end * monomial pos idx)%R /\
      is_minus_gradient (pot_energy pot) pos (pot_force pot pos).
Proof. exact coefficient_potential. Qed.
Print Assumptions C92_coefficients.

(** a table with comments and an empty line *)
Example C92_case :
  exists ls all, text_of ls coefficient_text /\ Forall single_line ls /\ Forall2 numbers_line ls all /\
  rows_in all = map (fun l => map Fin (line_numbers l)) coefficient_rows /\
  genfromtxt coefficient_text = Ok [[Fin 0; Fin (55/10)]; [Fin 2; Fin (-1)]; [Fin 4; Fin (25/100)]].
Proof. exact coefficient_case. Qed.
