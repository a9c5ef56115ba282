(** Model of main() in bdld/main.py (lines 30-123) *)
From Verif Require Export Model_setup.
Open Scope string_scope.
Open Scope Z_scope.

(** the keys of actions_dict *)
Inductive action := ALd | ABirthDeath | ATrajectories | AHistogram | AFes | ADeltaF | AParticleDistribution.

(** The objects of a run: dynamics with walkers and generator, and the state of the actions that
    are set up.  The walkers are shared by all actions (main.py passes ld.particles; the identity of
    the walker objects is treated in Model_heap.v). *)
Record world (rng : rng_if) := mkWorld {
  w_ld : ldpar; w_ps : list particle; w_rng : rng_st rng;
  w_bd : option (bdpar * rng_st rng * stats * list report);
  w_traj : option traj; w_hist : option histact; w_fes : option fesact;
  w_df : option (list (list bool) * recorder (list xreal));
  w_pd : option (list (list (xreal * xreal)) * recorder (list Z)) }.
Arguments mkWorld {rng}. Arguments w_ld {rng}. Arguments w_ps {rng}. Arguments w_rng {rng}.
Arguments w_bd {rng}. Arguments w_traj {rng}. Arguments w_hist {rng}. Arguments w_fes {rng}.
Arguments w_df {rng}. Arguments w_pd {rng}.

(** How the program ends: without errors, by sys.exit(1) after an error message, or with the
    traceback of an exception.  [Unmodelled]: a parameter was infinite or nan. *)
Inductive outcome (rng : rng_if) := Finished (w : world rng) | Exit1 | Traceback (x : exn) | Unmodelled.
Arguments Finished {rng}. Arguments Exit1 {rng}. Arguments Traceback {rng}. Arguments Unmodelled {rng}.
Definition uncaught {rng} (x : exn) : outcome rng := match x with NonFinite => Unmodelled | _ => Traceback x end.

Section main.
Context (e : env).
Notation rng := (e_rng e).

(** actions_dict[key] *)
Definition need {A} (o : option A) : res A := match o with Some a => Ok a | None => Err KeyError end.

Definition set_dyn (w : world rng) ps g :=
  mkWorld (w_ld w) ps g (w_bd w) (w_traj w) (w_hist w) (w_fes w) (w_df w) (w_pd w).
Definition set_bd (w : world rng) ps b :=
  mkWorld (w_ld w) ps (w_rng w) (Some b) (w_traj w) (w_hist w) (w_fes w) (w_df w) (w_pd w).
Definition set_traj (w : world rng) t :=
  mkWorld (w_ld w) (w_ps w) (w_rng w) (w_bd w) (Some t) (w_hist w) (w_fes w) (w_df w) (w_pd w).
Definition set_hist (w : world rng) h :=
  mkWorld (w_ld w) (w_ps w) (w_rng w) (w_bd w) (w_traj w) (Some h) (w_fes w) (w_df w) (w_pd w).
Definition set_fes (w : world rng) f :=
  mkWorld (w_ld w) (w_ps w) (w_rng w) (w_bd w) (w_traj w) (w_hist w) (Some f) (w_df w) (w_pd w).
Definition set_df (w : world rng) d :=
  mkWorld (w_ld w) (w_ps w) (w_rng w) (w_bd w) (w_traj w) (w_hist w) (w_fes w) (Some d) (w_pd w).
Definition set_pd (w : world rng) d :=
  mkWorld (w_ld w) (w_ps w) (w_rng w) (w_bd w) (w_traj w) (w_hist w) (w_fes w) (w_df w) (Some d).

(** main.py:75-78: the compulsory objects *)
Definition setup_dynamics (c : config) : res (world rng) :=
  do pot <- setup_potential e (c_potential c);
  do (ld, g) <- setup_ld e (c_ld c) pot;
  do ps <- init_particles e (c_particles c) ld;
  Ok (mkWorld ld ps g None None None None None None).

(** [if config.section: actions_dict[name] = setup(...)]; the entries of actions_dict so far are the
    keys in order of insertion and the objects in the world *)
Definition when (o : option dict) (a : action) (setup : dict -> world rng -> res (world rng))
    (s : list action * world rng) : res (list action * world rng) :=
  match o with
  | Some (kv :: d) => do w <- setup (kv :: d) (snd s); Ok ((fst s ++ [a])%list, w)
  | _ => Ok s
  end.

(** main.py:82-97 *)
Definition setup_actions (c : config) (w : world rng) : res (list action * world rng) :=
  let s := ([ALd], w) in
  do s <- when (c_birth_death c) ABirthDeath (fun o w =>
            do (par, g) <- setup_birth_death e o (w_ld w);
            Ok (set_bd w (w_ps w) (par, g, stats0, []))) s;
  do s <- when (c_trajectories c) ATrajectories (fun o w =>
            do t <- setup_trajectories e o (length (w_ps w)); Ok (set_traj w t)) s;
  do s <- when (c_histogram c) AHistogram (fun o w =>
            do t <- need (w_traj w);
            do h <- setup_histogram o (pot_ndim (ld_pot (w_ld w))) t; Ok (set_hist w h)) s;
  do s <- when (c_fes c) AFes (fun o w =>
            do h <- need (w_hist w);
            do f <- setup_fes e o (w_ld w) h; Ok (set_fes w f)) s;
  do s <- when (c_delta_f c) ADeltaF (fun o w =>
            do _ <- need (w_fes w);
            do h <- need (w_hist w);
            do d <- setup_delta_f e o (ha_hist h); Ok (set_df w d)) s;
  when (c_particle_distribution c) AParticleDistribution (fun o w =>
            do d <- setup_particle_distribution e o; Ok (set_pd w d)) s.

(** action.run(step).  An action that is not set up is never called (KeyError). *)
Definition run_action (a : action) (step : Z) (w : world rng) : res (world rng) :=
  match a with
  | ALd => do (ps, g) <- ld_run rng (w_ld w) (w_ps w) (w_rng w); Ok (set_dyn w ps g)
  | ABirthDeath =>
      do (par, g, st, out) <- need (w_bd w);
      do (b, out) <- bd_run rng (e_gd e) par step (mkBS (w_ps w) g st, out);
      Ok (set_bd w (bs_ps b) (par, bs_rng b, bs_stats b, out))
  | ATrajectories =>
      do t <- need (w_traj w);
      do t <- traj_run (ld_dt (w_ld w)) (w_ps w) t step; Ok (set_traj w t)
  | AHistogram =>
      do t <- need (w_traj w); do h <- need (w_hist w);
      do h <- ha_run t h step; Ok (set_hist w h)
  | AFes =>
      do h <- need (w_hist w); do f <- need (w_fes w);
      do f <- fes_run h (e_junk_fes e step) f step; Ok (set_fes w f)
  | ADeltaF =>
      do f <- need (w_fes w); do (masks, r) <- need (w_df w);
      do r <- delta_f_run (fa_fes f) (ld_kt (w_ld w)) (ld_dt (w_ld w)) masks r step;
      Ok (set_df w (masks, r))
  | AParticleDistribution =>
      do (states, r) <- need (w_pd w);
      do r <- pdist_run (pot_ndim (ld_pot (w_ld w))) (w_ps w) states r step;
      Ok (set_pd w (states, r))
  end.

(** action.final_run(n_steps); the dynamics does nothing (action.py:19-24) *)
Definition final_run_action (a : action) (step : Z) (w : world rng) : res (world rng) :=
  match a with
  | ALd => Ok w
  | ABirthDeath =>
      do (par, g, st, out) <- need (w_bd w);
      let (b, out) := bd_final_run rng par step (mkBS (w_ps w) g st, out) in
      Ok (set_bd w (bs_ps b) (par, bs_rng b, bs_stats b, out))
  | ATrajectories =>
      do t <- need (w_traj w); do t <- traj_final_run t step; Ok (set_traj w t)
  | AHistogram =>
      do t <- need (w_traj w); do h <- need (w_hist w);
      do h <- ha_final_run t h step; Ok (set_hist w h)
  | AFes =>
      do h <- need (w_hist w); do f <- need (w_fes w);
      do f <- fes_final_run h (e_junk_fes e (step + 1)) f step; Ok (set_fes w f)
  | ADeltaF =>
      do f <- need (w_fes w); do (masks, r) <- need (w_df w);
      do r <- delta_f_final_run (fa_fes f) (ld_kt (w_ld w)) (ld_dt (w_ld w)) masks r step;
      Ok (set_df w (masks, r))
  | AParticleDistribution =>
      do (states, r) <- need (w_pd w);
      do r <- pdist_final_run (pot_ndim (ld_pot (w_ld w))) (w_ps w) states r step;
      Ok (set_pd w (states, r))
  end.

(** main.py:113-121: main loop and final actions, for any implementation [run], [final] of the
    methods of the actions *)
Definition main_loop {W} (run final : action -> Z -> W -> res W) (actions_list : list action) (n_steps : Z) (w : W)
  : res W :=
  do w <- foldM (fun w step => foldM (fun w a => run a step w) actions_list w) (zrange 1 (n_steps + 1)) w;
  foldM (fun w a => final a n_steps w) actions_list w.

(** main.py:58-121 after the command line was parsed.  [file] is what is found under the name of the
    input file (see [read_input]). *)
Definition main (cv : conv) (file : option (res (list (string * section)))) : outcome rng :=
  match read_input cv file with                                                 (* 59-66 *)
  | Err FileNotFoundError | Err OptionError | Err SectionError => Exit1
  | Err x => uncaught x
  | Ok c =>
      match setup_dynamics c with                                               (* 75-78 *)
      | Err x => uncaught x
      | Ok w =>
          match setup_actions c w with                                          (* 81-107 *)
          | Err KeyError | Err OptionError => Exit1
          | Err x => uncaught x
          | Ok (actions_list, w) =>
              match (do n_steps <- v_int (get_dict (c_ld c) "n_steps");         (* 109-121 *)
                     main_loop run_action final_run_action actions_list n_steps w) with
              | Err x => uncaught x
              | Ok w => Finished w
              end
          end
      end
  end.
End main.
