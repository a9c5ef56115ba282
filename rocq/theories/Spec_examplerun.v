(** The output of the example of the repository (C89) *)
From Verif Require Import PyBase Model_xr Model_dyn Model_corr Model_setup Model_files Spec_rng Spec_correction Spec_main Spec_times Spec_traj Spec_hist Spec_fes Spec_files.
Open Scope string_scope.
Open Scope Z_scope.

(** the names of its files: trajectories of ten walkers, histogram, free energy every 500 of n steps and at
    the end, a plot, free energy differences *)
Definition example_files (n : Z) : list string :=
  (map (fun i => "traj." ++ string_of_nat i)%string (seq 0 10) ++ ["histo"] ++
   map (fun k => "fes_" ++ string_of_Z k)%string (times 0 n 500) ++ ["fes"; "fes.png"; "delta_f"])%list.
(** edges of 200 bins between -2.5 and 2.5 *)
Definition example_edges : list R := map (fun i => -25 / 10 + INR i * (25 / 1000))%R (seq 0 201).
(** number of samples left and right of zero *)
Definition left_half (counts : list nat) : nat := fold_right Nat.add 0%nat (firstn 100 counts).
Definition right_half (counts : list nat) : nat := fold_right Nat.add 0%nat (skipn 100 counts).

(** the content of the files, for walkers W k, histogram counts and surfaces F k after step k
    (k = n + 1: after the end of the n steps) *)
Record example_output (n : Z) (fe : files_env) (W : Z -> list particle) (counts : Z -> list nat) (F : Z -> list xreal) (fs : fsys) : Prop := {
  eo_trajectories : forall i, (i < 10)%nat ->
    fs_get fs ("traj." ++ string_of_nat i) =
      Some (Text ("#! FIELDS time pos_x." ++ string_of_nat i)
              :: map (fun k => Row (Fin (IZR k * (5 / 1000)) :: map Fin (p_pos (nth i (W k) no_walker)))) (times 0 n 5));
  eo_histogram : exists lines, fs_get fs "histo" = Some lines /\ shows [example_edges] (map (fun c => Fin (INR c)) (counts (n + 1))) lines;
  eo_surfaces : forall k, In k (times 0 n 500) ->
    exists lines, fs_get fs ("fes_" ++ string_of_Z k) = Some lines /\ shows [example_edges] (F k) lines;
  eo_surface : exists lines, fs_get fs "fes" = Some lines /\ shows [example_edges] (F (n + 1)) lines;
  eo_plot : fs_get fs "fes.png" = Some [Image (F (n + 1))];
  eo_differences : fs_get fs "delta_f" =
      Some (Text "#! FIELDS delta_f.1-2" :: Text ("#! SET kt " ++ fe_float fe 1)
              :: map (fun k => Row [Fin (IZR k * (5 / 1000)); free_energy_difference 1 (right_half (counts k)) (left_half (counts k))])
                   (times 0 n 100)) }.

(** an environment that meets all contracts *)
Definition lookup_env : env :=
  mkEnv demo_rng 1%nat 2%nat 3%nat (@lookup_griddata R) 0%R (fun _ => Err FileNotFoundError)
        (fun _ => 0%R) (fun _ => []) (fun _ => []) (fun _ _ => NaN) (fun _ => [NaN; NaN]) [NaN; NaN] (fun _ => [0; 0]) [0; 0].
