(** Model of the setup functions of bdld/main.py (lines 126-389): from the parsed input to the
    potential, the dynamics, the walkers and the actions.  Options that are floats may be
    infinite or nan in the input; where the rest of the model works with real numbers such a
    value gives [NonFinite] (the program is not modelled then). *)
From Verif Require Export Model_input Model_dyn Model_pot Model_potgrid Model_bd Model_traj Model_hist
  Model_histaction Model_fes Model_deltaf Model_pdist.
Open Scope string_scope.
Open Scope Z_scope.

(** What a run depends on besides the input file: the random number generators with the operating
    system entropy used by the three unseeded ones, scipy's griddata with the value it fills in
    outside (nan), the coefficient files, and the content of uninitialised arrays (np.empty).
    The junk of the FES calculation may be different at every step. *)
Record env := mkEnv {
  e_rng : rng_if;
  e_os_ld : rng_st e_rng; e_os_init : rng_st e_rng; e_os_bd : rng_st e_rng;
  e_gd : griddata_t R; e_nan : R;
  e_coeff_file : string -> res (list (list R));
  e_junk_times : nat -> R; e_junk_pos : nat -> list vec; e_junk_mom : nat -> list vec;
  e_junk_fes : Z -> nat -> xreal;
  e_junk_df : nat -> list xreal; e_junk_df1 : list xreal;
  e_junk_pd : nat -> list Z; e_junk_pd1 : list Z }.

(** np.empty with n rows *)
Definition np_empty {A} (junk : nat -> A) (n : nat) : list A := map junk (seq 0 n).

(** * Values of options.  The type of every value is fixed by the parser, the TypeErrors for other
    types do not occur for parsed inputs unless noted. *)
Definition fin (x : xreal) : res R := match x with Fin r => Ok r | _ => Err NonFinite end.
Definition v_int (v : oval) : res Z := match v with VInt z => Ok z | _ => Err TypeError end.
Definition v_opt_int (v : oval) : res (option Z) :=
  match v with VNone => Ok None | VInt z => Ok (Some z) | _ => Err TypeError end.
Definition v_float (v : oval) : res R := match v with VFloat x => fin x | _ => Err TypeError end.
Definition v_opt_float (v : oval) : res (option R) :=
  match v with VNone => Ok None | VFloat x => do r <- fin x; Ok (Some r) | _ => Err TypeError end.
Definition v_xfloats (v : oval) : res (list xreal) := match v with VFloats l => Ok l | _ => Err TypeError end.
Definition v_floats (v : oval) : res vec := do l <- v_xfloats v; mapM fin l.
Definition v_ints (v : oval) : res (list Z) := match v with VInts l => Ok l | _ => Err TypeError end.
Definition v_opt_ints (v : oval) : res (option (list Z)) :=
  match v with VNone => Ok None | VInts l => Ok (Some l) | _ => Err TypeError end.
Definition v_str (v : oval) : res string := match v with VStr s => Ok s | _ => Err TypeError end.
(** truth value of an optional string or bool *)
Definition v_true (v : oval) : bool :=
  match v with VStr s => negb (String.eqb s "") | VBool b => b | _ => false end.

(** np.random.default_rng(seed); a negative seed raises ValueError *)
Definition new_rng (rng : rng_if) (os : rng_st rng) (seed : option Z) : res (rng_st rng) :=
  match seed with
  | Some s => if s <? 0 then Err ValueError else Ok (default_rng rng os seed)
  | None => Ok (default_rng rng os None)
  end.

(** main.py:149-153 *)
Definition boundary_condition (o : dict) : option bcond :=
  let v := get_dict o "boundary-condition" in
  if vstr_is v "reflective" then Some Reflective
  else if vstr_is v "periodic" then Some Periodic else None.

(** main.py:126-154 setup_potential.  options["coeffs"] may be None: np.array(None) has no
    dimensions.  The program creates at most one Mueller-Brown potential, so the global array has its
    initial value. *)
Definition setup_potential (e : env) (o : dict) : res potential :=
  let bc := boundary_condition o in
  if vstr_is (get_dict o "type") "polynomial" then
    if vint_is (get_dict o "n_dim") 1 then                                      (* 129-133 *)
      do lo <- v_float (get_dict o "min");
      do hi <- v_float (get_dict o "max");
      do coeffs <- match get_dict o "coeffs" with
                   | VNone => Ok (mkArr [] [0%R])
                   | v => do l <- v_floats v; Ok (arr_of_list l)
                   end;
      poly_init coeffs (Some [(lo, hi)]) bc
    else                                                                        (* 134-139 *)
      do los <- v_floats (get_dict o "min");
      do his <- v_floats (get_dict o "max");
      do name <- v_str (get_dict o "coeffs-file");
      do n_dim <- v_int (get_dict o "n_dim");
      do rows <- e_coeff_file e name;
      do coeffs <- coefficients_from_file rows (Z.to_nat n_dim);
      poly_init coeffs (Some (combine los his)) bc
  else if vstr_is (get_dict o "type") "mueller-brown" then                      (* 140-141 *)
    do sf <- v_opt_float (get_dict o "scaling-factor");
    Ok (mb_potential (snd (mb_init mb_A0 sf)) bc)
  else Err OptionError.                                                         (* 142-147 *)

(** main.py:157-178 setup_ld; bussi_parinello_ld.py:48-70, overdamped_ld.py:44-61 (kt is 1.0) *)
Definition setup_ld (e : env) (o : dict) (pot : potential) : res (ldpar * rng_st (e_rng e)) :=
  if vstr_is (get_dict o "type") "bussi-parinello" then
    do dt <- v_float (get_dict o "timestep");
    do friction <- v_float (get_dict o "friction");
    do kt <- v_float (get_dict o "kt");
    do seed <- v_opt_int (get_dict o "seed");
    do g <- new_rng (e_rng e) (e_os_ld e) seed;
    Ok (mkLD (BussiParinello friction) pot dt kt, g)
  else if vstr_is (get_dict o "type") "overdamped" then
    do dt <- v_float (get_dict o "timestep");
    do seed <- v_opt_int (get_dict o "seed");
    do g <- new_rng (e_rng e) (e_os_ld e) seed;
    Ok (mkLD Overdamped pot dt 1%R, g)
  else Err OptionError.

(** * main.py:181-219 init_particles *)

(** [rng.uniform(start, end) for start, end in ld.pot.ranges] (194) *)
Fixpoint uniform_pos (rng : rng_if) (ranges : list (R * R)) (g : rng_st rng) : vec * rng_st rng :=
  match ranges with
  | [] => ([], g)
  | (lo, hi) :: rs => let (x, g1) := r_uniform rng lo hi g in
                      let (xs, g2) := uniform_pos rng rs g1 in (x :: xs, g2)
  end.

(** ld.add_particle(pos, mass) *)
Definition append_particle (ld : ldpar) (ps : list particle) (pos : vec) (mass : R) : res (list particle) :=
  add_particle ld ps pos mass (-1) false.

(** 193-195 *)
Fixpoint random_global (rng : rng_if) (ld : ldpar) (mass : R) (n : nat) (ps : list particle) (g : rng_st rng)
  : res (list particle) :=
  match n with
  | O => Ok ps
  | S n' => let (pos, g') := uniform_pos rng (pot_ranges (ld_pot ld)) g in
            do ps' <- append_particle ld ps pos mass;
            random_global rng ld mass n' ps' g'
  end.

(** "pos" in key *)
Definition has_pos (key : string) : bool := match String.index 0 "pos" key with Some _ => true | None => false end.

(** 200-201.  rng.choice raises ValueError for an empty list.  For positions of different lengths
    numpy (< 1.24, requirements.txt pins 1.21.4) builds an array of lists, so that only the chosen
    position is looked at. *)
Fixpoint random_pos (rng : rng_if) (ld : ldpar) (mass : R) (choices : list oval) (n : nat)
    (ps : list particle) (g : rng_st rng) : res (list particle) :=
  match n with
  | O => Ok ps
  | S n' =>
      match choices with
      | [] => Err ValueError
      | c0 :: _ =>
          let (i, g') := r_choice rng (length choices) g in
          do pos <- v_floats (nth i choices c0);
          do ps' <- append_particle ld ps pos mass;
          random_pos rng ld mass choices n' ps' g'
      end
  end.

(** int(x) of a float *)
Definition py_int (x : xreal) : res Z :=
  match x with Fin r => Ok (trunc r) | NaN => Err ValueError | _ => Err OverflowError end.

(** 205-209: walkers per position *)
Definition fraction_counts (fractions : list xreal) (number : Z) : res (list Z) :=
  let normalized := map (fun f => xdiv f (xsum fractions)) fractions in        (* 205-207 *)
  do counts <- mapM (fun f => py_int (xscale (IZR number) f)) normalized;      (* 208 *)
  match counts with
  | [] => Err IndexError
  | c0 :: cs => Ok ((c0 + (number - fold_right Z.add 0 counts)) :: cs)         (* 209 *)
  end.

(** n walkers at the same position (217-218) *)
Fixpoint add_copies (ld : ldpar) (mass : R) (pos : oval) (n : nat) (ps : list particle) : res (list particle) :=
  match n with
  | O => Ok ps
  | S n' => do p <- v_floats pos; do ps' <- append_particle ld ps p mass; add_copies ld mass pos n' ps'
  end.

Definition init_particles (e : env) (o : dict) (ld : ldpar) : res (list particle) :=
  do mass <- v_float (get_dict o "mass");
  do number <- v_int (get_dict o "number");
  let dist := get_dict o "initial-distribution" in
  if vstr_is dist "random-global" then                                          (* 190-195 *)
    do seed <- v_opt_int (get_dict o "seed");
    do g <- new_rng (e_rng e) (e_os_init e) seed;
    random_global (e_rng e) ld mass (Z.to_nat number) [] g
  else if vstr_is dist "random-pos" then                                        (* 196-201 *)
    do seed <- v_opt_int (get_dict o "seed");
    do g <- new_rng (e_rng e) (e_os_init e) seed;
    let choices := map snd (filter (fun kv => has_pos (fst kv)) o) in
    random_pos (e_rng e) ld mass choices (Z.to_nat number) [] g
  else if vstr_is dist "fractions-pos" then                                     (* 202-218 *)
    do fractions <- v_xfloats (get_dict o "fractions");
    do counts <- fraction_counts fractions number;
    do choices <- numbered_in_dict o "pos" "";
    if negb (Nat.eqb (length choices) (length counts)) then Err ValueError      (* 213-215 *)
    else foldM (fun ps pc => add_copies ld mass (fst pc) (Z.to_nat (snd pc)) ps) (combine choices counts) []
  else Ok [].

(** * Actions *)

(** birth_death.py:23-33 ApproxVariant.from_str *)
Definition variant_from_str (s : string) : res variant :=
  if existsb (String.eqb s) ["original"; "orig"] then Ok VOrig
  else if existsb (String.eqb s) ["additive"; "add"] then Ok VAdd
  else if existsb (String.eqb s) ["multiplicative"; "mult"] then Ok VMult
  else Err TypeError.

(** main.py:240-248 get_approx_variant.  Only a KeyError of from_str is turned into an OptionError. *)
Definition get_approx_variant (o : dict) (key : string) : res (option variant) :=
  match get_dict o key with
  | VStr s => if String.eqb s "" then Ok None
              else match variant_from_str s with
                   | Ok v => Ok (Some v)
                   | Err KeyError => Err OptionError
                   | Err e => Err e
                   end
  | _ => Ok None
  end.

(** main.py:250-255 *)
Definition approx_variant (o : dict) : res variant :=
  foldM (fun v key => do w <- get_approx_variant o key;
                      Ok (match w with Some w => w | None => v end))
        ["correction-variant"; "approximation-variant"] VOrig.

(** main.py:228-237: np.array of a single number has no length (TypeError) *)
Definition setup_bandwidth (o : dict) (n_dim : nat) : res vec :=
  do bw <- (if Nat.eqb n_dim 1 then do b <- v_float (get_dict o "kernel-bandwidth"); Ok [b]
            else v_floats (get_dict o "kernel-bandwidth"));
  if negb (Nat.eqb (length bw) n_dim) then Err OptionError else Ok bw.

(** main.py:270 *)
Definition bd_seed (seed : option Z) : option Z :=
  if truthyZ seed then option_map (fun s => s + 1000) seed else None.

(** main.py:222-273 setup_birth_death *)
Definition setup_birth_death (e : env) (o : dict) (ld : ldpar) : res (bdpar * rng_st (e_rng e)) :=
  let pot := ld_pot ld in
  do bw <- setup_bandwidth o (pot_ndim pot);
  do var <- approx_variant o;
  do eq_density <- match var with                                               (* 257-259 *)
                   | VOrig => Ok None
                   | _ => do d <- bd_prob_density pot bw (ld_kt ld); Ok (Some d)
                   end;
  do stride <- v_int (get_dict o "stride");
  do rate <- v_opt_float (get_dict o "exponential-factor");
  do seed <- v_opt_int (get_dict o "seed");
  do stats_stride <- v_opt_int (get_dict o "stats-stride");
  do g <- new_rng (e_rng e) (e_os_bd e) (bd_seed seed);
  do par <- bd_init (e_gd e) (e_nan e) (ld_dt ld) stride bw (ld_kt ld) rate
                    (v_true (get_dict o "recalculate-probabilities")) (Some var) eq_density
                    stats_stride (v_true (get_dict o "stats-filename"));
  Ok (par, g).

(** main.py:300-309 setup_trajectories; trajectory_action.py:47-53 sizes of the arrays *)
Definition setup_trajectories (e : env) (o : dict) (n_particles : nat) : res traj :=
  do stride <- v_opt_int (get_dict o "stride");
  do wstride <- v_opt_int (get_dict o "write-stride");
  let rows := Z.to_nat (orZ wstride 100) in
  Ok (traj_init n_particles stride (v_true (get_dict o "filename")) (v_true (get_dict o "momentum")) wstride
                (np_empty (e_junk_times e) rows) (np_empty (e_junk_pos e) rows) (np_empty (e_junk_mom e) rows)).

(** bounds of the histogram: numpy.histogramdd raises ValueError if they are not finite *)
Definition hist_bound (x : xreal) : res R := match x with Fin r => Ok r | _ => Err ValueError end.
Definition v_hist_bound (v : oval) : res R := match v with VFloat x => hist_bound x | _ => Err TypeError end.
Definition v_hist_bounds (v : oval) : res vec := do l <- v_xfloats v; mapM hist_bound l.

(** main.py:312-329 setup_histogram.  zip() and len() of a single number raise TypeError (for a
    Mueller-Brown potential with n_dim = 1 in the input). *)
Definition setup_histogram (o : dict) (n_dim : nat) (t : traj) : res histact :=
  do (ranges, bins) <-
    (if Nat.eqb n_dim 1 then
       do lo <- v_hist_bound (get_dict o "min");
       do hi <- v_hist_bound (get_dict o "max");
       do b <- v_int (get_dict o "bins"); Ok ([(lo, hi)], [b])
     else
       do los <- v_hist_bounds (get_dict o "min");
       do his <- v_hist_bounds (get_dict o "max");
       do b <- v_ints (get_dict o "bins"); Ok (combine los his, b));
  do stride <- v_opt_int (get_dict o "stride");
  do reset <- v_opt_ints (get_dict o "reset");
  do wstride <- v_opt_int (get_dict o "write-stride");
  ha_init t n_dim (map Z.to_nat bins) ranges stride reset (v_true (get_dict o "filename")) wstride.

(** main.py:332-349 setup_fes.  options["kt"] is not used: FesAction takes kt of the dynamics.
    The reference is only plotted. *)
Definition setup_fes (e : env) (o : dict) (ld : ldpar) (ha : histact) : res fesact :=
  do _ <- calculate_reference (pot_energy (ld_pot ld)) (hist_points (ha_hist ha)) true;
  do stride <- v_opt_int (get_dict o "stride");
  do wstride <- v_opt_int (get_dict o "write-stride");
  do pstride <- v_opt_int (get_dict o "plot-stride");
  fes_init (ld_kt ld) ha stride (v_true (get_dict o "filename")) wstride pstride
           (v_true (get_dict o "plot-filename")) (e_junk_fes e 0).

(** the values of the states given by the options state1-min, state1-max, ... (354-356, 378-380) *)
Definition state_point (v : oval) : res point :=
  match v with VFloats l => Ok (Nums l) | VFloat x => Ok (Num x) | _ => Err TypeError end.
Definition state_ranges (o : dict) : res (list (list (xreal * xreal))) :=
  do mins <- numbered_in_dict o "state" "-min";
  do maxs <- numbered_in_dict o "state" "-max";
  do mins <- mapM state_point mins;
  do maxs <- mapM state_point maxs;
  min_max_to_ranges mins maxs.

(** main.py:352-371 setup_delta_f: the masks and the recording.  All masks have the shape of
    the list of points, the FES has one dimension per axis of the histogram. *)
Definition setup_delta_f (e : env) (o : dict) (h : hist) : res (list (list bool) * recorder (list xreal)) :=
  do states <- state_ranges o;
  if Nat.ltb (length states) 2 then Err ValueError                              (* 357-359 *)
  else
    let points := hist_points h in
    do masks <- pos_inside_ranges (length (h_edges h)) points states;           (* 361-362 *)
    do stride <- v_opt_int (get_dict o "stride");
    do wstride <- v_opt_int (get_dict o "write-stride");
    do r <- delta_f_init (map (fun m => [length m]) masks) (n_bins_of (h_edges h)) stride wstride
                         (v_true (get_dict o "filename")) (np_empty (e_junk_df e)) (e_junk_df1 e);
    Ok (masks, r).

(** main.py:374-389 setup_particle_distribution *)
Definition setup_particle_distribution (e : env) (o : dict)
  : res (list (list (xreal * xreal)) * recorder (list Z)) :=
  do states <- state_ranges o;
  do stride <- v_opt_int (get_dict o "stride");
  do wstride <- v_opt_int (get_dict o "write-stride");
  do r <- pdist_init stride wstride (v_true (get_dict o "filename")) (np_empty (e_junk_pd e)) (e_junk_pd1 e);
  Ok (states, r).
