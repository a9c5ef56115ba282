(** Reproducible runs (C52) *)
From Verif Require Import PyBase Model_xr Model_input Model_dyn Model_bd Model_traj Model_rec Model_setup Model_main Spec_input Spec_traj Spec_main Spec_rng.
Open Scope Z_scope.

(** another run on the same machine with the same files: new entropy of the operating system ... *)
Definition with_entropy (e : env) (ld init bd : rng_st (e_rng e)) : env :=
  mkEnv (e_rng e) ld init bd (e_gd e) (e_nan e) (e_coeff_file e) (e_junk_times e) (e_junk_pos e) (e_junk_mom e)
        (e_junk_fes e) (e_junk_df e) (e_junk_df1 e) (e_junk_pd e) (e_junk_pd1 e).
(** ... and other contents of uninitialised memory *)
Definition with_memory (e : env) (times : nat -> R) (pos mom : nat -> list vec) (fes : Z -> nat -> xreal)
    (df : nat -> list xreal) (df1 : list xreal) (pd : nat -> list Z) (pd1 : list Z) : env :=
  mkEnv (e_rng e) (e_os_ld e) (e_os_init e) (e_os_bd e) (e_gd e) (e_nan e) (e_coeff_file e) times pos mom fes df df1 pd pd1.

(** all random generators have a seed (there is none for fixed initial positions) *)
Definition has_seed (o : dict) (s : Z) : Prop := assoc "seed"%string o = Some (VInt s).
Definition seeded (c : config) : Prop :=
  (exists s, has_seed (c_ld c) s) /\
  ((exists s, has_seed (c_particles c) s) \/
   assoc "initial-distribution"%string (c_particles c) = Some (VStr "fractions-pos")) /\
  forall o, c_birth_death c = Some o -> exists s, has_seed o s.
(** the seed of the birth-death is not 0 *)
Definition bd_seed_not_zero (c : config) : Prop := forall o, c_birth_death c = Some o -> ~ has_seed o 0.

(** * The example: a generator whose numbers depend on its initial state only through being 0 *)
Definition entropy_rng : rng_if := {|
  rng_st := nat;
  r_default := fun _ => 1%nat;
  r_normal := fun n g => (repeat 0%R n, g);
  r_random := fun n g => (repeat (if Nat.eqb g 0 then 0 else 99/100)%R n, g);
  r_shuffle := fun l g => (l, g);
  r_integers := fun n g => (0%nat, g);
  r_uniform := fun lo hi g => (if Nat.even g then lo else (lo + hi) / 2, S g)%R;
  r_choice := fun n g => (0%nat, g) |}.
Definition entropy_env (bd : nat) : env :=
  mkEnv entropy_rng 1%nat 1%nat bd (fun _ _ pts d => map (fun _ => d) pts) 0%R (fun _ => Err FileNotFoundError)
        (fun _ => 0%R) (fun _ => []) (fun _ => []) (fun _ _ => NaN) (fun _ => []) [] (fun _ => []) [].
Open Scope string_scope.
Definition entropy_conv : conv := {|
  to_float := to_float demo_conv;
  to_int := fun s => if String.eqb s "2" then Some 2 else to_int demo_conv s |}.
Definition entropy_input : list (string * section) :=
  [("ld", [("type", "overdamped"); ("timestep", "0.1"); ("n_steps", "1"); ("seed", "1")]);
   ("potential", demo1_pot "0,1");
   ("particles", [("number", "2"); ("initial-distribution", "random-global"); ("seed", "1")]);
   ("birth-death", demo1_bd [("seed", "0")])].

(** * Equal results: walkers, generators, reports, trajectory files, histogram and free energy with their files *)
Definition same_results {rng} (w w' : world rng) : Prop :=
  w_ld w = w_ld w' /\ w_ps w = w_ps w' /\ w_rng w = w_rng w' /\ w_bd w = w_bd w' /\
  option_map tr_files (w_traj w) = option_map tr_files (w_traj w') /\
  w_hist w = w_hist w' /\ w_fes w = w_fes w'.
(** the file of a delta-f or particle-distribution action *)
Definition recorded {M A} (o : option (M * recorder A)) : option (option (list A)) := option_map (fun d => rc_file (snd d)) o.
(** the stride of an action is given and larger than the number of steps *)
Definition too_short (o : option dict) (n : Z) : Prop := exists d s, o = Some d /\ assoc "stride" d = Some (VInt s) /\ n < s.

(** the example: a particle-distribution with a stride of 100 in a run of 4 steps; a second memory *)
Definition short_input : list (string * section) :=
  demo1 [("particle-distribution", [("stride", "100"); ("write-stride", "100"); ("filename", "counts"); ("state1-min", "0"); ("state1-max", "2")])].
Definition other_memory (e : env) : env :=
  with_memory e (fun _ => 1%R) (fun _ => []) (fun _ => []) (fun _ _ => PInf) (fun _ => []) [] (fun _ => [7]) [].
