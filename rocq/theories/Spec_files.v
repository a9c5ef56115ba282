(** Notions for the output files (C48, C49, C57, C60, C61) *)
From Coq Require Import Permutation.
From Verif Require Import PyBase Model_xr Model_input Model_dyn Model_bd Model_traj Model_hist Model_histaction Model_fes Model_rec
  Model_setup Model_main Spec_rng Spec_input Spec_pot Spec_setup Spec_main Model_files.
Open Scope string_scope.
Open Scope Z_scope.
Open Scope list_scope.

(** the content of every file but those named is the same *)
Definition unchanged_except (names : list string) (fs fs' : fsys) : Prop :=
  forall f, ~ In f names -> fs_get fs' f = fs_get fs f.

(** the content is found under some name, unchanged or followed by more lines *)
Definition available (fs : fsys) (content : list line) : Prop := exists name, fs_get fs name = Some content.
Definition available_prefix (fs : fsys) (content : list line) : Prop :=
  exists name more, fs_get fs name = Some (content ++ more).

(** a name without slash in a directory: nothing, the root directory, or a path and one slash *)
Definition no_slash (s : string) : Prop := has_char "/" s = false.
Definition directory (d : string) : Prop :=
  d = "" \/ d = "/" \/ exists d' c, d = (d' ++ String c "/")%string /\ c <> "/"%char.
(** bck.n.name *)
Definition bck (n : nat) (name : string) : string := ("bck." ++ string_of_nat n ++ "." ++ name)%string.

(** every path can be written *)
Definition writable (fe : files_env) : Prop := forall name, fe_ok fe name = true.

(** a header: a line with the names of the columns, then one line per constant *)
Definition header_of (fields : list string) (constants : list (string * string)) : list line :=
  Text ("#! FIELDS " ++ String.concat " " fields)
    :: map (fun c => Text ("#! SET " ++ fst c ++ " " ++ snd c)) constants.

(** ** Operations *)
Definition is_plot (op : fop) : Prop := match op with OPlot _ _ => True | _ => False end.

(** lines are only appended to files that were initialised before *)
Definition appends_initialised (ops : list fop) : Prop :=
  forall pre name rows post, ops = pre ++ OAppend name rows :: post ->
  exists fields constants, In (OInit name fields constants) pre.
(** nothing is plotted, and every write_to_file really writes (one or two dimensions) *)
Definition always_writes (op : fop) : Prop :=
  match op with OPlot _ _ => False | OWrite _ None => False | _ => True end.

(** the file in which a plot is saved, and whether matplotlib knows the format *)
Definition plot_file (name : string) : string :=
  if String.eqb (extension name) "" then (rstrip "." name ++ ".png")%string else name.
Definition plottable (fe : files_env) (name : string) : Prop :=
  In (if String.eqb (extension name) "" then "png" else lower (extension name)) (fe_formats fe).
(** the file an operation is about *)
Definition op_file (op : fop) : string :=
  match op with OInit n _ _ | OAppend n _ | OWrite n _ => n | OPlot n _ => plot_file n end.
Definition can_plot (fe : files_env) (op : fop) : Prop := match op with OPlot n _ => plottable fe n | _ => True end.
(** all lines appended to a file *)
Definition appended (name : string) (ops : list fop) : list line :=
  flat_map (fun op => match op with OAppend n rows => if String.eqb n name then rows else [] | _ => [] end) ops.

(** English ordinals: the last two digits decide *)
Definition ends_with (suffix s : string) : Prop := exists p, s = (p ++ suffix)%string.
Definition english_suffix (digits suffix : string) : Prop :=
  ((ends_with "11" digits \/ ends_with "12" digits \/ ends_with "13" digits) /\ suffix = "th") \/
  (~ ends_with "11" digits /\ ~ ends_with "12" digits /\ ~ ends_with "13" digits /\
     (ends_with "1" digits /\ suffix = "st" \/ ends_with "2" digits /\ suffix = "nd" \/
      ends_with "3" digits /\ suffix = "rd" \/
      (~ ends_with "1" digits /\ ~ ends_with "2" digits /\ ~ ends_with "3" digits /\ suffix = "th"))).

(** ** The output files of a run with their content, from the objects at its end (C61): every table
    has a header (if there are names of columns) and then the recorded rows.  [None]: the file is not written *)
Section outputs.
Context (e : env) (fe : files_env) (c : config) (w : world (e_rng e)).
Definition table (name : string) (fields : list string) (constants : list (string * string)) (rows : list line)
  : string * option (list line) :=
  (name, Some (match fields with [] => [] | _ => header_of fields constants end ++ rows)).
Definition coordinates : list string := firstn (pot_ndim (ld_pot (w_ld w))) ["x"; "y"; "z"].
Definition stats_files : list (string * option (list line)) :=
  match w_bd w with
  | Some (par, _, _, reports) =>
      if bd_to_file par
      then [table (file_opt (opts (c_birth_death c)) "stats-filename")
              ["timestep"; "dup_succ"; "dup_attempts"; "kill_succ"; "kill_attempts"]
              [("timestep", fe_float fe (bd_dt par)); ("kernel_bandwidth", fe_array fe (bd_bw par)); ("kt", fe_float fe (bd_kt par))]
              (map stats_row reports)]
      else []
  | None => []
  end.
(** names of the columns: time, coordinates, coordinates of the momentum *)
Definition traj_columns (momentum : bool) (i : nat) : list string :=
  "time" :: map (fun x => "pos_" ++ x ++ "." ++ string_of_nat i)%string coordinates
  ++ (if momentum then map (fun x => "mom_" ++ x ++ "." ++ string_of_nat i)%string coordinates else []).
Definition trajectory_files : list (string * option (list line)) :=
  match w_traj w with
  | Some t => match tr_files t with
              | Some walkers =>
                  map (fun ir => table (file_opt (opts (c_trajectories c)) "filename" ++ "." ++ string_of_nat (fst ir))%string
                                   (traj_columns (match tr_mom t with Some _ => true | None => false end) (fst ir)) []
                                   (map (fun r => Row (map Fin r)) (snd ir)))
                    (combine (seq 0 (length walkers)) walkers)
              | None => []
              end
  | None => []
  end.
Definition histogram_files : list (string * option (list line)) :=
  match w_hist w with
  | Some h => map (fun sd => (stepped (file_opt (opts (c_histogram c)) "filename") (fst sd),
                              hist_lines fe (opts (c_histogram c)) (pot_ndim (ld_pot (w_ld w))) (ha_hist h) (snd sd)))
                  (ha_written h)
  | None => []
  end.
Definition fes_files : list (string * option (list line)) :=
  match w_hist w, w_fes w with
  | Some h, Some f => map (fun sd => (stepped (file_opt (opts (c_fes c)) "filename") (fst sd),
                                      fes_lines fe (pot_ndim (ld_pot (w_ld w))) (ha_hist h) (snd sd)))
                          (fa_written f)
  | _, _ => []
  end.
Definition plot_files : list (string * option (list line)) :=
  match w_fes w with
  | Some f => map (fun sd => (plot_file (stepped (file_opt (opts (c_fes c)) "plot-filename") (fst sd)), Some [Image (snd sd)]))
                  (fa_plotted f)
  | _ => []
  end.
Definition delta_f_files : list (string * option (list line)) :=
  match w_df w with
  | Some (masks, r) =>
      match rc_file r with
      | Some rows => [table (file_opt (opts (c_delta_f c)) "filename")
                        (map (fun i => "delta_f.1-" ++ string_of_nat i)%string (seq 2 (length masks - 1)))
                        [("kt", fe_float fe (ld_kt (w_ld w)))] (map Row rows)]
      | None => []
      end
  | None => []
  end.
Definition distribution_files : list (string * option (list line)) :=
  match w_pd w with
  | Some (states, r) =>
      match rc_file r with
      | Some rows => [table (file_opt (opts (c_particle_distribution c)) "filename")
                        (map (fun i => "n_particles_" ++ string_of_nat i)%string (seq 0 (length states)))
                        (map (fun i => ("state_" ++ string_of_nat (fst i), fe_state fe (snd i))%string)
                             (combine (seq 0 (length states)) states))
                        (map (fun l => Row (map (fun z => Fin (IZR z)) l)) rows)]
      | None => []
      end
  | None => []
  end.
Definition output_parts : list (list (string * option (list line))) :=
  [stats_files; trajectory_files; histogram_files; fes_files; plot_files; delta_f_files; distribution_files].
Definition output_files : list (string * option (list line)) := concat output_parts.
End outputs.

(** ** Columns (C49): the names in the first line of a file *)
Fixpoint words (s : string) : list string :=
  match s with
  | EmptyString => []
  | String a t =>
      if Ascii.eqb a " " then words t
      else match t with
           | EmptyString => [String a ""]
           | String b _ => if Ascii.eqb b " " then String a "" :: words t
                           else match words t with w :: ws => String a w :: ws | [] => [String a ""] end
           end
  end.
Definition column_names (lines : list line) : option (list string) :=
  match lines with
  | Text l :: _ => match words l with
                   | "#!" :: "FIELDS" :: names => Some names
                   | _ => None
                   end
  | _ => None
  end.
(** there is a header with the names of n columns *)
Definition names_columns (lines : list line) (n : nat) : Prop :=
  exists names, column_names lines = Some names /\ length names = n.
(** every row of numbers has n columns *)
Definition has_columns (lines : list line) (n : nat) : Prop := forall r, In (Row r) lines -> length r = n.
(** np.empty((rows, columns)) has rows of this length *)
Definition array_shapes (e : env) (w0 : world (e_rng e)) : Prop :=
  (forall masks r, w_df w0 = Some (masks, r) ->
     (forall i, length (e_junk_df e i) = length masks) /\ length (e_junk_df1 e) = length masks) /\
  (forall states r, w_pd w0 = Some (states, r) ->
     (forall i, length (e_junk_pd e i) = S (length states)) /\ length (e_junk_pd1 e) = S (length states)).

(** ** Grid files (C60) *)
Definition is_text (l : line) : Prop := exists s, l = Text s.
(** slices with an empty line between them *)
Definition separated (slices : list (list line)) : list line :=
  match slices with [] => [] | s :: rest => s ++ flat_map (fun t => Text "" :: t) rest end.
(** equal bins of a range *)
Definition equal_bins (edges : list R) : Prop :=
  exists (lo hi : R) n, (lo < hi)%R /\ (0 < n)%nat /\ edges = map (fun i => (lo + INR i * ((hi - lo) / INR n))%R) (seq 0 (S n)).

(** the lines show the values of all bins, given bin by bin in row-major order (the last dimension is the fastest):
    after the header one row per bin with the middle of the bin and its value; in two dimensions the rows
    with the same first coordinate are together and an empty line separates them *)
Definition shows (edges : list (list R)) (values : list xreal) (lines : list line) : Prop :=
  exists head, Forall is_text head /\
  match edges with
  | [ex] => length values = (length ex - 1)%nat /\
            lines = head ++ map (fun i => Row [Fin (middle ex i); nth i values NaN]) (seq 0 (length ex - 1))
  | [ex; ey] => let nx := (length ex - 1)%nat in let ny := (length ey - 1)%nat in
            length values = (nx * ny)%nat /\
            lines = head ++ separated (map (fun i =>
                      map (fun j => Row [Fin (middle ex i); Fin (middle ey j); nth (i * ny + j) values NaN]) (seq 0 ny)) (seq 0 nx))
  | _ => False
  end.

(** ** Examples *)
(** an input with all output files *)
Definition all_outputs : list (string * section) :=
  Spec_main.demo1 [("trajectories", [("stride", "1"); ("write-stride", "4"); ("filename", "traj")]);
         ("histogram", [("stride", "1"); ("min", "-2"); ("max", "2"); ("bins", "4"); ("filename", "hist")]);
         ("fes", [("kt", "1"); ("filename", "fes")]);
         ("delta-f", [("stride", "1"); ("write-stride", "4"); ("filename", "delta_f"); ("state1-min", "-2"); ("state1-max", "0"); ("state2-min", "0"); ("state2-max", "2")]);
         ("particle-distribution", [("stride", "1"); ("write-stride", "4"); ("filename", "dist"); ("state1-min", "0"); ("state1-max", "2")])].
(** an environment with uninitialised memory of the shape that is needed *)
Definition shaped_env : env :=
  mkEnv demo_rng 1%nat 2%nat 3%nat (fun _ _ pts d => map (fun _ => d) pts) 0%R (fun _ => Err FileNotFoundError)
        (fun _ => 0%R) (fun _ => []) (fun _ => []) (fun _ _ => NaN) (fun _ => [NaN; NaN]) [NaN; NaN] (fun _ => [0; 0]) [0; 0].
Definition plain_files : files_env :=
  mkFE (fun _ => true) ["png"; "pdf"; "svg"] (fun _ => "x") (fun _ => "[x]") (fun _ => "[(x, x)]").

(** ** Plots (C57): names and surfaces of the plots of a run in their order *)
Definition plots (e : env) (c : config) (w : world (e_rng e)) : list (string * list xreal) :=
  match w_fes w with
  | Some fa => map (fun sd => (stepped (file_opt (opts (c_fes c)) "plot-filename") (fst sd), snd sd)) (fa_plotted fa)
  | None => []
  end.
(** number of plots with a format that matplotlib does not know *)
Definition unsaved (fe : files_env) (l : list (string * list xreal)) (n : nat) : Prop :=
  exists good bad, Permutation l (good ++ bad) /\ Forall (fun p => plottable fe (fst p)) good /\
    Forall (fun p => ~ plottable fe (fst p)) bad /\ length bad = n.
(** an input that plots after step 4 and at the end *)
Definition plot_demo : list (string * section) :=
  Spec_main.demo1 [("trajectories", [("stride", "1")]);
         ("histogram", [("stride", "1"); ("min", "-2"); ("max", "2"); ("bins", "4")]);
         ("fes", [("kt", "1"); ("stride", "1"); ("plot-stride", "4"); ("plot-filename", "fes.png")])].
(** an input in three dimensions with a histogram file *)
Definition conv3 : conv :=
  {| to_float := to_float demo_conv; to_int := fun s => if String.eqb s "3" then Some 3 else to_int demo_conv s |}.
Definition demo3 : list (string * section) :=
  [("ld", demo1_ld);
   ("potential", [("type", "polynomial"); ("n_dim", "3"); ("coeffs-file", "coeffs"); ("min", "-2,-2,-2"); ("max", "2,2,2")]);
   ("particles", demo1_particles); ("trajectories", [("stride", "1")]);
   ("histogram", [("stride", "1"); ("min", "-2,-2,-2"); ("max", "2,2,2"); ("bins", "1,1,1"); ("filename", "hist")])].
(** the file of the coefficients: x^2 + 0 *)
Definition env3 : env :=
  mkEnv demo_rng 1%nat 2%nat 3%nat (fun _ _ pts d => map (fun _ => d) pts) 0%R
        (fun _ => Ok (map line_numbers [([0; 0; 0]%nat, 0, []); ([2; 0; 0]%nat, 1, [])]%R))
        (fun _ => 0%R) (fun _ => []) (fun _ => []) (fun _ _ => NaN) (fun _ => []) [] (fun _ => []) [].
