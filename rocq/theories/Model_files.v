(** Output files: backups, headers and what is written when.

    Model of bdld/helpers/misc.py and bdld/helpers/plumed_header.py (the directory bdld/helpers is
    an empty submodule at this commit, the sources are those of dist/bdld-0.3.2.tar.gz), of
    Grid.write_to_file, of the header and file parts of the actions, and of saving plots.

    A file is its list of lines: texts, rows of numbers (the formatting of numbers is not
    modelled) or an image.  Paths are compared as strings (no links, no '..').  Opening or renaming
    fails with an OSError for an arbitrary fixed set of paths. *)
From Verif Require Export Model_main.
From Coq Require Import DecimalString.
Open Scope string_scope.
Open Scope Z_scope.
Open Scope list_scope.

Inductive line := Text (s : string) | Row (l : list xreal) | Image (l : list xreal).
Definition fsys := list (string * list line).
Definition fs_get (fs : fsys) (name : string) : option (list line) := assoc name fs.
Definition fs_del (fs : fsys) (name : string) : fsys := filter (fun f => negb (String.eqb (fst f) name)) fs.
Definition fs_set (fs : fsys) (name : string) (content : list line) : fsys := (name, content) :: fs_del fs name.
(** os.path.exists *)
Definition fs_exists (fs : fsys) (name : string) : bool := match fs_get fs name with Some _ => true | None => false end.

(** What the output depends on besides the run: [fe_ok] the paths that can be opened for writing,
    [fe_formats] the image formats supported by matplotlib, and the texts that python's str() gives for
    floats, arrays of floats and states. *)
Record files_env := mkFE {
  fe_ok : string -> bool; fe_formats : list string;
  fe_float : R -> string; fe_array : list R -> string; fe_state : list (xreal * xreal) -> string }.

(** * Paths (posixpath.py, genericpath.py of python) *)
Fixpoint has_char (a : ascii) (s : string) : bool :=
  match s with EmptyString => false | String c t => Ascii.eqb c a || has_char a t end.
(** the part after the last [a] *)
Fixpoint after_last (a : ascii) (s : string) : string :=
  match s with EmptyString => EmptyString | String c t => if has_char a s then after_last a t else s end.
Definition drop_end (n : nat) (s : string) : string := substring 0 (String.length s - n) s.
(** s.rstrip(a) *)
Fixpoint rstrip (a : ascii) (s : string) : string :=
  match s with
  | EmptyString => EmptyString
  | String c t => match rstrip a t with
                  | EmptyString => if Ascii.eqb c a then EmptyString else String c EmptyString
                  | t' => String c t'
                  end
  end.
(** os.path.split: the slashes at the end of the directory are removed unless it consists of slashes *)
Definition path_split (p : string) : string * string :=
  let f := after_last "/" p in
  let head := drop_end (String.length f) p in
  (match rstrip "/" head with EmptyString => head | d => d end, f).
(** os.path.join of a directory and a name without slashes *)
Definition path_join (d f : string) : string :=
  if String.eqb d "" then f
  else if String.eqb (after_last "/" d) "" then (d ++ f)%string
  else (d ++ "/" ++ f)%string.
(** os.path.splitext(p)[1][1:]: the extension without the dot; leading dots of a name do not count *)
Definition extension (p : string) : string :=
  let f := after_last "/" p in
  if has_char "." f then
    let x := after_last "." f in
    match rstrip "." (drop_end (S (String.length x)) f) with EmptyString => EmptyString | _ => x end
  else EmptyString.

(** * bdld/helpers/misc.py *)

(** misc.py:75 os.path.join(d, "bck." + str(backupnum) + "." + f) *)
Definition backup_name (name : string) (n : nat) : string :=
  let (d, f) := path_split name in path_join d ("bck." ++ string_of_nat n ++ "." ++ f)%string.

(** misc.py:75-77 while loop; with [fuel] steps at most (the number of files is always enough, see
    Proof_files.v) *)
Fixpoint free_backup (fuel : nat) (fs : fsys) (name : string) (n : nat) : res nat :=
  match fuel with
  | O => Err NoTermination
  | S f => if fs_exists fs (backup_name name n) then free_backup f fs name (S n) else Ok n
  end.

(** misc.py:61-78 backup_if_exists *)
Definition backup_if_exists (fe : files_env) (fs : fsys) (name : string) : fsys * res unit :=
  match fs_get fs name with
  | None => (fs, Ok tt)
  | Some content =>
      match free_backup (S (length fs)) fs name 0 with
      | Err x => (fs, Err x)
      | Ok n => if fe_ok fe (backup_name name n)
                then (fs_set (fs_del fs name) (backup_name name n) content, Ok tt)        (* 78 os.rename *)
                else (fs, Err OSError)
      end
  end.

(** plumed_header.py:37-46 __repr__, one string per line *)
Definition header_lines (fields : list string) (constants : list (string * string)) : list string :=
  ("#! FIELDS " ++ String.concat " " fields)%string
    :: map (fun c => ("#! SET " ++ fst c ++ " " ++ snd c)%string) constants.

(** open(filename, "w") and writing *)
Definition write_file (fe : files_env) (fs : fsys) (name : string) (content : list line) : fsys * res unit :=
  if fe_ok fe name then (fs_set fs name content, Ok tt) else (fs, Err OSError).
(** open(filename, "ab") and writing *)
Definition append_file (fe : files_env) (fs : fsys) (name : string) (rows : list line) : fsys * res unit :=
  if fe_ok fe name
  then (fs_set fs name (match fs_get fs name with Some c => c | None => [] end ++ rows), Ok tt)
  else (fs, Err OSError).

(** misc.py:81-104 initialize_file (overwrite is never set) *)
Definition initialize_file (fe : files_env) (fs : fsys) (name : string) (fields : list string)
    (constants : list (string * string)) : fsys * res unit :=
  match backup_if_exists fe fs name with
  | (fs1, Err x) => (fs1, Err x)
  | (fs1, Ok _) => write_file fe fs1 name
                     (match fields with [] => [] | _ => map Text (header_lines fields constants) end)
  end.

(** misc.py:126-149 write_2d_sliced_to_file: an empty line between the slices *)
Fixpoint sliced (slices : list (list (list xreal))) : list line :=
  match slices with
  | [] => []
  | [s] => map Row s
  | s :: t => map Row s ++ Text "" :: sliced t
  end.

(** misc.py:152-167 make_ordinal *)
Definition string_of_Z (z : Z) : string := NilZero.string_of_int (Z.to_int z).
Definition make_ordinal (n : Z) : string :=
  let suffix := nth (Z.to_nat (Z.min (n mod 10) 4)) ["th"; "st"; "nd"; "rd"; "th"] "" in
  let suffix := if (11 <=? n mod 100) && (n mod 100 <=? 13) then "th" else suffix in
  (string_of_Z n ++ suffix)%string.

(** * grid.py:183-215 write_to_file: the lines of the file, [None] if nothing is written.
    The columns of the points and of the data. *)
Definition grid_lines (n_dim : nat) (axes : list (list R)) (points : list vec) (n_points : list nat)
    (header : list string) (data : list xreal) : option (list line) :=
  match n_dim with
  | 1%nat => Some (map Text header ++                                                   (* 195-204 *)
                   map (fun xy => Row [Fin (fst xy); snd xy]) (combine (nth 0 axes []) data))
  | 2%nat => let rows := map (fun pv => map Fin (fst pv) ++ [snd pv]) (combine points data) in
             Some (map Text header ++ sliced (rows_of (nth 0 n_points 0%nat) (nth 1 n_points 0%nat) rows))
  | _ => None
  end.

(** * Headers of the actions *)

(** potential.py:100-112 get_fields *)
Definition get_fields (n_dim : nat) : res (list string) :=
  match n_dim with
  | 1%nat => Ok ["x"] | 2%nat => Ok ["x"; "y"] | 3%nat => Ok ["x"; "y"; "z"]
  | _ => Err ValueError
  end.

(** trajectory_action.py:60-63 *)
Definition traj_fields (fields : list string) (momentum : bool) (i : nat) : list string :=
  "time" :: map (fun f => ("pos_" ++ f ++ "." ++ string_of_nat i)%string) fields
  ++ (if momentum then map (fun f => ("mom_" ++ f ++ "." ++ string_of_nat i)%string) fields else []).

(** histogram_action.py:83-88, fes_action.py:86-91 *)
Definition range_constants (fe : files_env) (fields : list string) (ranges : list (R * R)) (n_points : list nat)
  : list (string * string) :=
  flat_map (fun frn => let '(f, (r, n)) := frn in
      [((f ++ "_min")%string, fe_float fe (fst r)); ((f ++ "_max")%string, fe_float fe (snd r));
       ((f ++ "_n_bins")%string, string_of_nat n)])
    (combine fields (combine ranges n_points)).

(** delta_f_action.py:79-81; no reference is passed by main.py *)
Definition delta_f_fields (n_masks : nat) : list string :=
  map (fun i => ("delta_f.1-" ++ string_of_nat i)%string) (seq 2 (n_masks - 1)).
(** particle_distribution.py:70-73 *)
Definition pdist_fields (n_states : nat) : list string :=
  map (fun i => ("n_particles_" ++ string_of_nat i)%string) (seq 0 n_states).
Definition pdist_constants (fe : files_env) (states : list (list (xreal * xreal))) : list (string * string) :=
  map (fun i => (("state_" ++ string_of_nat (fst i))%string, fe_state fe (snd i))) (combine (seq 0 (length states)) states).
(** birth_death.py:319-332 *)
Definition stats_fields : list string := ["timestep"; "dup_succ"; "dup_attempts"; "kill_succ"; "kill_attempts"].

(** * File operations of a run *)
Inductive fop :=
| OInit (name : string) (fields : list string) (constants : list (string * string))   (* initialize_file *)
| OAppend (name : string) (rows : list line)          (* open(name, "ab"), np.savetxt *)
| OWrite (name : string) (lines : option (list line)) (* backup_if_exists, write_to_file *)
| OPlot (name : string) (fes : list xreal).           (* plot_fes *)

(** Figure.savefig of matplotlib 3.5: without extension the default format png is used and its name is
    appended; an unsupported format raises ValueError.  An existing file is overwritten. *)
Definition savefig (fe : files_env) (fs : fsys) (name : string) (fes : list xreal) : fsys * res unit :=
  let ext := extension name in
  let (file, fmt) := if String.eqb ext "" then ((rstrip "." name ++ ".png")%string, "png") else (name, lower ext) in
  if existsb (String.eqb fmt) (fe_formats fe) then write_file fe fs file [Image fes] else (fs, Err ValueError).

(** fes_action.py:271-286 save_fig_interactive; [stdin] are the lines the user types, then end of file *)
Fixpoint save_interactive (fe : files_env) (fes : list xreal) (stdin : list string) (fs : fsys)
  : fsys * list string * res unit :=
  match stdin with
  | [] => (fs, [], Err EOFError)
  | a :: rest =>
      if String.eqb a "" then (fs, rest, Ok tt)
      else match savefig fe fs a fes with
           | (fs', Ok _) => (fs', rest, Ok tt)
           | (fs', Err OSError) => save_interactive fe fes rest fs'
           | (fs', Err x) => (fs', rest, Err x)
           end
  end.

(** fes_action.py:211-268 plot_fes (only the saving) *)
Definition plot_fes (fe : files_env) (name : string) (fes : list xreal) (st : fsys * list string)
  : fsys * list string * res unit :=
  match savefig fe (fst st) name fes with
  | (fs', Err ValueError) => save_interactive fe fes (snd st) fs'
  | (fs', r) => (fs', snd st, r)
  end.

Definition apply_op (fe : files_env) (st : fsys * list string) (op : fop) : fsys * list string * res unit :=
  let (fs, stdin) := st in
  match op with
  | OInit name fields constants => let (fs', r) := initialize_file fe fs name fields constants in (fs', stdin, r)
  | OAppend name rows => let (fs', r) := append_file fe fs name rows in (fs', stdin, r)
  | OWrite name lines =>
      let (fs', r) := match backup_if_exists fe fs name with
                      | (fs1, Err x) => (fs1, Err x)
                      | (fs1, Ok _) => match lines with
                                       | Some l => write_file fe fs1 name l
                                       | None => (fs1, Ok tt)
                                       end
                      end in (fs', stdin, r)
  | OPlot name fes => plot_fes fe name fes st
  end.
(** one operation after the other, until one fails *)
Fixpoint apply_ops (fe : files_env) (ops : list fop) (st : fsys * list string) : fsys * list string * res unit :=
  match ops with
  | [] => (st, Ok tt)
  | op :: ops' => match apply_op fe st op with
                  | (st', Ok _) => apply_ops fe ops' st'
                  | (st', Err x) => (st', Err x)
                  end
  end.

(** * The operations of the program.  A computation is the list of its file operations with its
    result; no part of the program reads the files written by it. *)
Definition wio (A : Type) : Type := (list fop * res A)%type.
Definition wbind {A B} (m : wio A) (f : A -> wio B) : wio B :=
  match m with
  | (ops, Ok a) => let (ops', r) := f a in (ops ++ ops', r)
  | (ops, Err x) => (ops, Err x)
  end.
Definition lift {A} (r : res A) : wio A := ([], r).
Definition tell {A} (ops : list fop) (a : A) : wio A := (ops, Ok a).
Notation "'wdo' x <- r ; k" := (wbind r (fun x => k))
  (at level 200, x pattern, r at level 100, k at level 200).
Fixpoint foldW {A S} (f : S -> A -> wio S) (l : list A) (s : S) : wio S :=
  match l with
  | [] => tell [] s
  | x :: xs => wdo s' <- f s x; foldW f xs s'
  end.

(** an option that is a file name; "" if it is not set *)
Definition file_opt (o : dict) (key : string) : string := match get_dict o key with VStr s => s | _ => "" end.

(** histogram_action.py:156, fes_action.py:155, 171 *)
Definition stepped (name : string) (step : option Z) : string :=
  match step with Some s => (name ++ "_" ++ string_of_Z s)%string | None => name end.
Definition walker_file (name : string) (i : nat) : string := (name ++ "." ++ string_of_nat i)%string.

Section program.
Context (e : env) (fe : files_env).
Notation rng := (e_rng e).

(** main.py:222-273, birth_death.py:89-137: the statistics file is initialised after the generator is
    made and before the correction is calculated *)
Definition setup_birth_death_w (o : dict) (ld : ldpar) : wio (bdpar * rng_st rng) :=
  let pot := ld_pot ld in
  wdo bw <- lift (setup_bandwidth o (pot_ndim pot));
  wdo var <- lift (approx_variant o);
  wdo eq_density <- lift match var with
                         | VOrig => Ok None
                         | _ => do d <- bd_prob_density pot bw (ld_kt ld); Ok (Some d)
                         end;
  wdo stride <- lift (v_int (get_dict o "stride"));
  wdo rate <- lift (v_opt_float (get_dict o "exponential-factor"));
  wdo seed <- lift (v_opt_int (get_dict o "seed"));
  wdo stats_stride <- lift (v_opt_int (get_dict o "stats-stride"));
  wdo g <- lift (new_rng rng (e_os_bd e) (bd_seed seed));
  wdo _ <- lift (if Req_EM_T (ld_kt ld) 0 then Err ZeroDivisionError else Ok tt);
  wdo _ <- (if v_true (get_dict o "stats-filename")
            then tell [OInit (file_opt o "stats-filename") stats_fields
                         [("timestep", fe_float fe (ld_dt ld * IZR stride)%R); ("kernel_bandwidth", fe_array fe bw);
                          ("kt", fe_float fe (ld_kt ld))]] tt
            else tell [] tt);
  wdo par <- lift (bd_init (e_gd e) (e_nan e) (ld_dt ld) stride bw (ld_kt ld) rate
                     (v_true (get_dict o "recalculate-probabilities")) (Some var) eq_density
                     stats_stride (v_true (get_dict o "stats-filename")));
  tell [] (par, g).

(** trajectory_action.py:56-64 *)
Definition setup_trajectories_w (o : dict) (n_dim n_particles : nat) : wio traj :=
  wdo t <- lift (setup_trajectories e o n_particles);
  if v_true (get_dict o "filename") then
    wdo fields <- lift (get_fields n_dim);
    tell (map (fun i => OInit (walker_file (file_opt o "filename") i)
                              (traj_fields fields (v_true (get_dict o "momentum")) i) []) (seq 0 n_particles)) t
  else tell [] t.

(** histogram_action.py:82-83 and fes_action.py:84-85: get_fields may raise *)
Definition check_fields {A} (o : dict) (n_dim : nat) (a : A) : wio A :=
  if v_true (get_dict o "filename") then wdo _ <- lift (get_fields n_dim); tell [] a else tell [] a.

(** delta_f_action.py:77-84 *)
Definition setup_delta_f_w (o : dict) (ld : ldpar) (h : hist) : wio (list (list bool) * recorder (list xreal)) :=
  wdo d <- lift (setup_delta_f e o h);
  if v_true (get_dict o "filename")
  then tell [OInit (file_opt o "filename") (delta_f_fields (length (fst d))) [("kt", fe_float fe (ld_kt ld))]] d
  else tell [] d.

(** particle_distribution.py:68-74 *)
Definition setup_particle_distribution_w (o : dict) : wio (list (list (xreal * xreal)) * recorder (list Z)) :=
  wdo d <- lift (setup_particle_distribution e o);
  if v_true (get_dict o "filename")
  then tell [OInit (file_opt o "filename") (pdist_fields (length (fst d))) (pdist_constants fe (fst d))] d
  else tell [] d.

(** main.py:82-97 with the files *)
Definition when_w (o : option dict) (a : action) (setup : dict -> world rng -> wio (world rng))
    (s : list action * world rng) : wio (list action * world rng) :=
  match o with
  | Some (kv :: d) => wdo w <- setup (kv :: d) (snd s); tell [] (fst s ++ [a], w)
  | _ => tell [] s
  end.
Definition setup_actions_w (c : config) (w : world rng) : wio (list action * world rng) :=
  let n_dim := pot_ndim (ld_pot (w_ld w)) in
  let s := ([ALd], w) in
  wdo s <- when_w (c_birth_death c) ABirthDeath (fun o w =>
            wdo (par, g) <- setup_birth_death_w o (w_ld w);
            tell [] (set_bd e w (w_ps w) (par, g, stats0, []))) s;
  wdo s <- when_w (c_trajectories c) ATrajectories (fun o w =>
            wdo t <- setup_trajectories_w o n_dim (length (w_ps w)); tell [] (set_traj e w t)) s;
  wdo s <- when_w (c_histogram c) AHistogram (fun o w =>
            wdo t <- lift (need (w_traj w));
            wdo h <- lift (setup_histogram o n_dim t);
            wdo h <- check_fields o n_dim h; tell [] (set_hist e w h)) s;
  wdo s <- when_w (c_fes c) AFes (fun o w =>
            wdo h <- lift (need (w_hist w));
            wdo f <- lift (setup_fes e o (w_ld w) h);
            wdo f <- check_fields o n_dim f; tell [] (set_fes e w f)) s;
  wdo s <- when_w (c_delta_f c) ADeltaF (fun o w =>
            wdo _ <- lift (need (w_fes w));
            wdo h <- lift (need (w_hist w));
            wdo d <- setup_delta_f_w o (w_ld w) (ha_hist h); tell [] (set_df e w d)) s;
  when_w (c_particle_distribution c) AParticleDistribution (fun o w =>
            wdo d <- setup_particle_distribution_w o; tell [] (set_pd e w d)) s.

(** what was added to a list *)
Definition added {A} (old new : list A) : list A := skipn (length old) new.
(** the options of a section *)
Definition opts (o : option dict) : dict := match o with Some d => d | None => [] end.

(** trajectory_action.py:116-129: one append per walker *)
Fixpoint traj_appends (name : string) (i : nat) (old new : list (list vec)) : list fop :=
  match old, new with
  | f :: fs, f' :: fs' => OAppend (walker_file name i) (map (fun r => Row (map Fin r)) (added f f'))
                            :: traj_appends name (S i) fs fs'
  | _, _ => []
  end.

(** birth_death.py:344-361 *)
Definition stats_row (r : report) : line :=
  let s := rep_stats r in
  Row (map Fin [IZR (rep_step r); INR (dup_count s); INR (dup_attempts s); INR (kill_count s); INR (kill_attempts s)]).

(** histogram_action.py:84-88, 160: the constants are the ranges of the bins as in the input *)
Definition hist_lines (o : dict) (n_dim : nat) (h : hist) (counts : list nat) : option (list line) :=
  let fields := match get_fields n_dim with Ok f => f | Err _ => [] end in
  let ranges := if Nat.eqb n_dim 1
                then match v_hist_bound (get_dict o "min"), v_hist_bound (get_dict o "max") with
                     | Ok lo, Ok hi => [(lo, hi)] | _, _ => []
                     end
                else match v_hist_bounds (get_dict o "min"), v_hist_bounds (get_dict o "max") with
                     | Ok los, Ok his => combine los his | _, _ => []
                     end in
  grid_lines (length (h_edges h)) (hist_axes h) (hist_points h) (n_bins_of (h_edges h))
    (header_lines (fields ++ ["histo_count"]) (range_constants fe fields ranges (n_bins_of (h_edges h))))
    (map (fun c => Fin (INR c)) counts).

(** fes_action.py:85-91, 159, 206-207: the grid of the FES is made from the first and last bin center
    (histogram.py:49-51) *)
Definition center_ranges (h : hist) : list (R * R) := map (fun a => (hd 0%R a, last a 0%R)) (hist_axes h).
Definition fes_lines (n_dim : nat) (h : hist) (fes : list xreal) : option (list line) :=
  let fields := match get_fields n_dim with Ok f => f | Err _ => [] end in
  let n_points := n_bins_of (h_edges h) in
  let axes := axes_of (center_ranges h) n_points in
  grid_lines (length (h_edges h)) axes (points_of axes n_points (length (h_edges h))) n_points
    (header_lines (fields ++ ["fes"]) (range_constants fe fields (center_ranges h) n_points)) fes.

(** The file operations of action.run(step) ([final = false]) or final_run(step), given the state
    before and after.  An action that raises does so before it touches a file. *)
Definition action_ops (c : config) (final : bool) (a : action) (step : Z) (w w' : world rng) : list fop :=
  let n_dim := pot_ndim (ld_pot (w_ld w)) in
  match a with
  | ALd => []
  | ABirthDeath =>
      match w_bd w, w_bd w' with
      | Some (par, _, _, out), Some (_, _, _, out') =>
          if bd_to_file par
          then map (fun r => OAppend (file_opt (opts (c_birth_death c)) "stats-filename") [stats_row r]) (added out out')
          else []
      | _, _ => []
      end
  | ATrajectories =>
      match w_traj w, w_traj w' with
      | Some t, Some t' =>
          if final || (step mod tr_wstride t =? 0) then
            match tr_files t, tr_files t' with
            | Some fs, Some fs' => traj_appends (file_opt (opts (c_trajectories c)) "filename") 0 fs fs'
            | _, _ => []
            end
          else []
      | _, _ => []
      end
  | AHistogram =>
      let o := opts (c_histogram c) in
      match w_hist w, w_hist w' with
      | Some h, Some h' =>
          map (fun sd => OWrite (stepped (file_opt o "filename") (fst sd)) (hist_lines o n_dim (ha_hist h) (snd sd)))
              (added (ha_written h) (ha_written h'))
      | _, _ => []
      end
  | AFes =>
      let o := opts (c_fes c) in
      match w_hist w, w_fes w, w_fes w' with
      | Some h, Some f, Some f' =>
          map (fun sd => OWrite (stepped (file_opt o "filename") (fst sd)) (fes_lines n_dim (ha_hist h) (snd sd)))
              (added (fa_written f) (fa_written f'))
          ++ map (fun sd => OPlot (stepped (file_opt o "plot-filename") (fst sd)) (snd sd))
              (added (fa_plotted f) (fa_plotted f'))
      | _, _, _ => []
      end
  | ADeltaF =>
      match w_df w, w_df w' with
      | Some (_, r), Some (_, r') =>
          if final || negb (rc_wstride r =? 0) && (step mod rc_wstride r =? 0) then
            match rc_file r, rc_file r' with
            | Some f, Some f' => [OAppend (file_opt (opts (c_delta_f c)) "filename") (map Row (added f f'))]
            | _, _ => []
            end
          else []
      | _, _ => []
      end
  | AParticleDistribution =>
      match w_pd w, w_pd w' with
      | Some (_, r), Some (_, r') =>
          if final || negb (rc_wstride r =? 0) && (step mod rc_wstride r =? 0) then
            match rc_file r, rc_file r' with
            | Some f, Some f' => [OAppend (file_opt (opts (c_particle_distribution c)) "filename")
                                    (map (fun l => Row (map (fun z => Fin (IZR z)) l)) (added f f'))]
            | _, _ => []
            end
          else []
      | _, _ => []
      end
  end.
Definition run_action_w (c : config) (a : action) (step : Z) (w : world rng) : wio (world rng) :=
  match run_action e a step w with
  | Ok w' => tell (action_ops c false a step w w') w'
  | Err x => lift (Err x)
  end.
Definition final_run_action_w (c : config) (a : action) (step : Z) (w : world rng) : wio (world rng) :=
  match final_run_action e a step w with
  | Ok w' => tell (action_ops c true a step w w') w'
  | Err x => lift (Err x)
  end.

(** main.py:113-121 *)
Definition main_loop_w (c : config) (actions_list : list action) (n_steps : Z) (w : world rng) : wio (world rng) :=
  wdo w <- foldW (fun w step => foldW (fun w a => run_action_w c a step w) actions_list w) (zrange 1 (n_steps + 1)) w;
  foldW (fun w a => final_run_action_w c a n_steps w) actions_list w.

(** main.py:58-121: the file operations that the program attempts, and how it ends if none fails *)
Definition main_ops (cv : conv) (file : option (res (list (string * section)))) : list fop * outcome rng :=
  match read_input cv file with
  | Err FileNotFoundError | Err OptionError | Err SectionError => ([], Exit1)
  | Err x => ([], uncaught x)
  | Ok c =>
      match setup_dynamics e c with
      | Err x => ([], uncaught x)
      | Ok w =>
          match setup_actions_w c w with
          | (ops, Err KeyError) | (ops, Err OptionError) => (ops, Exit1)
          | (ops, Err x) => (ops, uncaught x)
          | (ops, Ok (actions_list, w)) =>
              match (wdo n_steps <- lift (v_int (get_dict (c_ld c) "n_steps"));
                     main_loop_w c actions_list n_steps w) with
              | (ops', Err x) => (ops ++ ops', uncaught x)
              | (ops', Ok w) => (ops ++ ops', Finished w)
              end
          end
      end
  end.

(** The program on a file system: the files at the end, the unread part of the standard input, and
    how it ends.  A failing file operation ends the program with a traceback: the exceptions caught around
    the setup of the actions (KeyError, OptionError) are not raised by file operations. *)
Definition main_files (cv : conv) (file : option (res (list (string * section)))) (fs : fsys) (stdin : list string)
  : fsys * list string * outcome rng :=
  let (ops, o) := main_ops cv file in
  match apply_ops fe ops (fs, stdin) with
  | (st, Ok _) => (st, o)
  | (st, Err x) => (st, Traceback x)
  end.
End program.
