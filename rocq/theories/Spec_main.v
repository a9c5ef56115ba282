(** Notions for the complete program *)
From Verif Require Import PyBase Model_xr Model_input Spec_input Spec_rng Model_dyn Model_setup Model_main.
Open Scope string_scope.
Open Scope Z_scope.

(** * The sequence of calls (C51) *)

Inductive call := Run (a : action) (step : Z) | Final (a : action) (step : Z).

(** the order of the actions, and the section of the input that asks for them *)
Definition canonical : list action :=
  [ALd; ABirthDeath; ATrajectories; AHistogram; AFes; ADeltaF; AParticleDistribution].
Definition section_of (a : action) : string :=
  match a with
  | ALd => "ld" | ABirthDeath => "birth-death" | ATrajectories => "trajectories" | AHistogram => "histogram"
  | AFes => "fes" | ADeltaF => "delta-f" | AParticleDistribution => "particle-distribution"
  end.
Definition has_section (secs : list (string * section)) (name : string) : bool :=
  match assoc name secs with Some _ => true | None => false end.
Definition configured (secs : list (string * section)) : list action :=
  filter (fun a => has_section secs (section_of a)) canonical.

(** run(1) of all actions, run(2) of all actions, ..., run(n) of all actions, final_run(n) of all actions *)
Definition calls (actions : list action) (n : Z) : list call :=
  (flat_map (fun k => map (fun a => Run a k) actions) (zrange 1 (n + 1)) ++ map (fun a => Final a n) actions)%list.

Definition perform1 (e : env) (w : world (e_rng e)) (c : call) : res (world (e_rng e)) :=
  match c with Run a k => run_action e a k w | Final a k => final_run_action e a k w end.
Definition perform (e : env) (cs : list call) (w : world (e_rng e)) : res (world (e_rng e)) := foldM (perform1 e) cs w.

Definition call_dec (c d : call) : {c = d} + {c <> d}.
Proof. repeat decide equality. Defined.

(** what an action may change *)
Definition frame {rng} (a : action) (w w' : world rng) : Prop :=
  w_ld w' = w_ld w /\
  (a <> ALd -> w_rng w' = w_rng w) /\
  (a <> ALd -> a <> ABirthDeath -> w_ps w' = w_ps w) /\
  (a <> ABirthDeath -> w_bd w' = w_bd w) /\
  (a <> ATrajectories -> w_traj w' = w_traj w) /\
  (a <> AHistogram -> w_hist w' = w_hist w) /\
  (a <> AFes -> w_fes w' = w_fes w) /\
  (a <> ADeltaF -> w_df w' = w_df w) /\
  (a <> AParticleDistribution -> w_pd w' = w_pd w).

(** the whole setup succeeds with these objects and this number of steps *)
Definition set_up (e : env) (cv : conv) (secs : list (string * section)) (acts : list action) (n : Z)
    (w : world (e_rng e)) : Prop :=
  exists c w0, parse_all cv secs = Ok c /\ setup_dynamics e c = Ok w0 /\ setup_actions e c w0 = Ok (acts, w) /\
    assoc "n_steps" (c_ld c) = Some (VInt n).

(** * The options of the input file (C44) *)

(** the text given for an option *)
Definition given (secs : list (string * section)) (name key text : string) : Prop :=
  exists sec, assoc name secs = Some sec /\ assoc key sec = Some text.
Definition one_dim (cv : conv) (secs : list (string * section)) : Prop :=
  exists text, given secs "potential" "n_dim" text /\ to_int cv text = Some 1.
Definition numbered_key (pre suf key : string) : Prop := exists i, key = prefixed pre (S i) suf.

(** the documented options with their types *)
Inductive option_of (cv : conv) (secs : list (string * section)) : string -> string -> ktype -> Prop :=
| oo_ld k t : In (k, t) [("type", KStr); ("timestep", KFloat); ("n_steps", KInt); ("seed", KInt)] ->
    option_of cv secs "ld" k t
| oo_ld_bp k t : given secs "ld" "type" "bussi-parinello" -> In (k, t) [("kt", KFloat); ("friction", KFloat)] ->
    option_of cv secs "ld" k t
| oo_pot k t : In (k, t) [("type", KStr); ("boundary-condition", KStr); ("n_dim", KInt)] ->
    option_of cv secs "potential" k t
| oo_pot_1 k t : given secs "potential" "type" "polynomial" -> one_dim cv secs ->
    In (k, t) [("coeffs", KFloats); ("min", KFloat); ("max", KFloat)] -> option_of cv secs "potential" k t
| oo_pot_n k t : given secs "potential" "type" "polynomial" -> ~ one_dim cv secs ->
    In (k, t) [("coeffs-file", KStr); ("min", KFloats); ("max", KFloats)] -> option_of cv secs "potential" k t
| oo_pot_mb k t : given secs "potential" "type" "mueller-brown" ->
    In (k, t) [("scaling-factor", KFloat)] -> option_of cv secs "potential" k t
| oo_part k t : In (k, t) [("number", KInt); ("mass", KFloat); ("seed", KInt); ("initial-distribution", KStr)] ->
    option_of cv secs "particles" k t
| oo_part_pos k : numbered_key "pos" "" k ->
    given secs "particles" "initial-distribution" "random-pos" \/
    given secs "particles" "initial-distribution" "fractions-pos" ->
    option_of cv secs "particles" k KFloats
| oo_part_frac : given secs "particles" "initial-distribution" "fractions-pos" ->
    option_of cv secs "particles" "fractions" KFloats
| oo_bd k t : In (k, t) [("stride", KInt); ("correction-variant", KStr); ("approximation-variant", KStr);
      ("exponential-factor", KFloat); ("recalculate-probabilities", KBool); ("stats-stride", KInt);
      ("stats-filename", KStr); ("seed", KInt)] -> option_of cv secs "birth-death" k t
| oo_bd_1 : one_dim cv secs -> option_of cv secs "birth-death" "kernel-bandwidth" KFloat
| oo_bd_n : ~ one_dim cv secs -> option_of cv secs "birth-death" "kernel-bandwidth" KFloats
| oo_traj k t : In (k, t) [("filename", KStr); ("stride", KInt); ("momentum", KBool); ("write-stride", KInt); ("fmt", KStr)] ->
    option_of cv secs "trajectories" k t
| oo_hist k t : In (k, t) [("stride", KInt); ("reset", KInts); ("filename", KStr); ("write-stride", KInt); ("fmt", KStr)] ->
    option_of cv secs "histogram" k t
| oo_hist_1 k t : one_dim cv secs -> In (k, t) [("min", KFloat); ("max", KFloat); ("bins", KInt)] ->
    option_of cv secs "histogram" k t
| oo_hist_n k t : ~ one_dim cv secs -> In (k, t) [("min", KFloats); ("max", KFloats); ("bins", KInts)] ->
    option_of cv secs "histogram" k t
| oo_fes k t : In (k, t) [("kt", KFloat); ("stride", KInt); ("filename", KStr); ("write-stride", KInt); ("fmt", KStr);
      ("plot-stride", KInt); ("plot-filename", KStr); ("plot-domain", KFloats); ("plot-title", KStr)] ->
    option_of cv secs "fes" k t
| oo_out name k t : In name ["delta-f"; "particle-distribution"] ->
    In (k, t) [("stride", KInt); ("filename", KStr); ("write-stride", KInt); ("fmt", KStr)] -> option_of cv secs name k t
| oo_state name k : In name ["delta-f"; "particle-distribution"] ->
    numbered_key "state" "-min" k \/ numbered_key "state" "-max" k -> option_of cv secs name k KFloats.

(** a given value that cannot be converted *)
Definition bad_value (cv : conv) (secs : list (string * section)) (t : ktype) : Prop :=
  exists name key text, option_of cv secs name key t /\ given secs name key text /\ forall v, ~ converts cv t text v.
Definition percent_free (secs : list (string * section)) : Prop :=
  forall name sec, assoc name secs = Some sec -> plain sec.
(** the sections required by [fes] and [delta-f] are there *)
Definition dependencies (secs : list (string * section)) : Prop :=
  (has_section secs "fes" = true -> has_section secs "histogram" = true) /\
  (has_section secs "delta-f" = true -> has_section secs "fes" = true).

(** names of the approximation variants *)
Definition variant_names : list string := ["original"; "orig"; "additive"; "add"; "multiplicative"; "mult"].

(** * A complete one-dimensional input for the examples *)
Definition demo1_ld : section := [("type", "overdamped"); ("timestep", "0.1"); ("n_steps", "4"); ("seed", "1")].
Definition demo1_pot (coeffs : string) : section :=
  [("type", "polynomial"); ("n_dim", "1"); ("coeffs", coeffs); ("min", "-2"); ("max", "2")].
Definition demo1_particles : section := [("number", "4"); ("initial-distribution", "random-global"); ("seed", "1")].
Definition demo1_bd (more : section) : section := ([("stride", "1"); ("kernel-bandwidth", "0.1")] ++ more)%list.
Definition demo1 (more : list (string * section)) : list (string * section) :=
  ([("ld", demo1_ld); ("potential", demo1_pot "0,0,1"); ("particles", demo1_particles)] ++ more)%list.
Definition demo_env (os_ld os_init os_bd : nat) : env :=
  mkEnv demo_rng os_ld os_init os_bd (fun _ _ pts d => map (fun _ => d) pts) 0%R (fun _ => Err FileNotFoundError)
        (fun _ => 0%R) (fun _ => []) (fun _ => []) (fun _ _ => NaN) (fun _ => []) [] (fun _ => []) [].
