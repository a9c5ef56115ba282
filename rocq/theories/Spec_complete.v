(** Sensible values of the options, with which the program runs to its end (C88) *)
From Verif Require Import PyBase Model_xr Model_input Model_dyn Model_pot Model_setup Model_main Spec_input Spec_rng Spec_setup Spec_bdrun Spec_correction Spec_pot Spec_grid.
Open Scope string_scope.
Open Scope Z_scope.

(** values of options: a number that is neither infinite nor nan, a list of such numbers, a seed *)
Definition finite (d : dict) (k : string) (r : R) : Prop := assoc k d = Some (VFloat (Fin r)).
Definition finites (d : dict) (k : string) (l : vec) : Prop := assoc k d = Some (VFloats (map Fin l)).
Definition good_seed (d : dict) : Prop :=
  assoc "seed" d = Some VNone \/ exists z, assoc "seed" d = Some (VInt z) /\ 0 <= z.

(** the three kinds of potentials: a polynomial in one dimension with coefficients in the input, a
    polynomial in two or three dimensions with a file of at least two coefficients, Mueller-Brown.
    Minimum and maximum of every dimension. *)
Inductive sensible_potential (e : env) (d : dict) : list (R * R) -> Prop :=
| polynomial_1d coeffs lo hi :
    assoc "type" d = Some (VStr "polynomial") -> assoc "n_dim" d = Some (VInt 1) ->
    finites d "coeffs" coeffs -> coeffs <> [] -> finite d "min" lo -> finite d "max" hi -> (lo < hi)%R ->
    sensible_potential e d [(lo, hi)]
| polynomial_nd n los his name lines :
    assoc "type" d = Some (VStr "polynomial") -> assoc "n_dim" d = Some (VInt (Z.of_nat n)) -> (2 <= n <= 3)%nat ->
    finites d "min" los -> finites d "max" his -> length los = n -> Forall2 Rlt los his ->
    assoc "coeffs-file" d = Some (VStr name) -> e_coeff_file e name = Ok (map line_numbers lines) ->
    (2 <= length lines)%nat -> Forall (fun l => length (orders l) = n) lines ->
    (forall l l', In l lines -> In l' lines -> length (snd l) = length (snd l')) ->
    sensible_potential e d (combine los his)
| mueller_brown :
    assoc "type" d = Some (VStr "mueller-brown") ->
    (assoc "scaling-factor" d = Some VNone \/ exists r, finite d "scaling-factor" r) ->
    sensible_potential e d [(-1.5, 1.5); (-0.5, 2.5)]%R.

Definition sensible_dynamics (d : dict) : Prop :=
  (exists dt, finite d "timestep" dt) /\ good_seed d /\
  (assoc "type" d = Some (VStr "overdamped") \/ exists kt friction, finite d "kt" kt /\ finite d "friction" friction).

(** positions in as many dimensions as the potential, one fraction for each of them *)
Inductive sensible_walkers (d : dict) (n_dim : nat) : Prop :=
| anywhere : assoc "initial-distribution" d = Some (VStr "random-global") -> good_seed d -> sensible_walkers d n_dim
| some_positions positions : assoc "initial-distribution" d = Some (VStr "random-pos") -> good_seed d ->
    positions_given d positions -> positions <> [] -> Forall (fun p => length p = n_dim) positions ->
    sensible_walkers d n_dim
| all_positions positions fractions : assoc "initial-distribution" d = Some (VStr "fractions-pos") ->
    positions_given d positions -> Forall (fun p => length p = n_dim) positions ->
    finites d "fractions" fractions -> Forall (Rle 0) fractions -> (0 < total fractions)%R ->
    length positions = length fractions ->
    sensible_walkers d n_dim.

(** names of the corrections *)
Definition variant_keys : list string := ["correction-variant"; "approximation-variant"].
Definition no_correction : list string := [""; "original"; "orig"].
Definition a_correction : list string := ["additive"; "add"; "multiplicative"; "mult"].

(** at least two walkers; corrections in at most two dimensions *)
Definition sensible_birth_death (e : env) (d : dict) (n_dim : nat) (number : Z) : Prop :=
  2 <= number /\
  ((n_dim = 1%nat /\ exists b, finite d "kernel-bandwidth" b) \/
   (n_dim <> 1%nat /\ exists bs, finites d "kernel-bandwidth" bs /\ length bs = n_dim)) /\
  (forall k, In k variant_keys -> assoc k d = Some VNone \/
     exists s, assoc k d = Some (VStr s) /\ In s (no_correction ++ a_correction)%list) /\
  ((exists k s, In k variant_keys /\ assoc k d = Some (VStr s) /\ In s a_correction) ->
     (n_dim <= 2)%nat /\ griddata_exact (e_gd e) /\ griddata_pointwise (e_gd e)) /\
  (assoc "exponential-factor" d = Some VNone \/ exists r, finite d "exponential-factor" r) /\ good_seed d /\
  (assoc "recalculate-probabilities" d = Some (VBool false) \/
   forall m g, Forall (fun u => 0 < u)%R (fst (r_random (e_rng e) m g))).

(** a file name for what is written during the run *)
Definition named (d : dict) (stride name : string) : Prop :=
  assoc stride d = Some VNone \/ exists s, assoc name d = Some (VStr s) /\ s <> "".

Definition sensible_histogram (d : dict) (n_dim : nat) : Prop :=
  ((n_dim = 1%nat /\ exists lo hi n, finite d "min" lo /\ finite d "max" hi /\ assoc "bins" d = Some (VInt n) /\ (lo < hi)%R) \/
   (n_dim <> 1%nat /\ exists los his ns, finites d "min" los /\ finites d "max" his /\ assoc "bins" d = Some (VInts ns) /\
      length los = n_dim /\ length ns = n_dim /\ Forall2 Rlt los his)) /\
  named d "write-stride" "filename".

(** write-stride and plot-stride only together with a stride *)
Definition sensible_fes (d : dict) : Prop :=
  named d "write-stride" "filename" /\ named d "plot-stride" "plot-filename" /\
  (assoc "plot-stride" d = Some VNone \/ exists z, assoc "plot-stride" d = Some (VInt z)) /\
  (assoc "stride" d <> Some VNone \/ (assoc "write-stride" d = Some VNone /\ assoc "plot-stride" d = Some VNone)).

Definition sensible_recording (d : dict) : Prop :=
  exists s w, optional_int d "stride" s /\ optional_int d "write-stride" w /\
    strides_fit s w (match assoc "filename" d with Some (VStr f) => negb (String.eqb f "") | _ => false end).
(** at least two states, in one dimension (C12) *)
Definition sensible_delta_f (d : dict) (n_dim : nat) : Prop :=
  n_dim = 1%nat /\ sensible_recording d /\
  exists mins maxs, states_given d mins maxs /\ (2 <= length mins)%nat /\ length maxs = length mins /\
    Forall (fun s => length s = 1%nat) mins /\ Forall (fun s => length s = 1%nat) maxs.
Definition sensible_distribution (d : dict) (n_dim : nat) : Prop :=
  sensible_recording d /\
  exists mins maxs, states_given d mins maxs /\ mins <> [] /\ length maxs = length mins /\
    Forall (fun s => length s = n_dim) mins /\ Forall (fun s => length s = n_dim) maxs.

(** the parsed options of all sections, for [number] walkers in the given ranges *)
Definition sensible (e : env) (c : config) (ranges : list (R * R)) (number : Z) : Prop :=
  sensible_potential e (c_potential c) ranges /\ sensible_dynamics (c_ld c) /\
  assoc "number" (c_particles c) = Some (VInt number) /\ (exists m, finite (c_particles c) "mass" m) /\
  sensible_walkers (c_particles c) (length ranges) /\
  on_section (c_birth_death c) (fun d => sensible_birth_death e d (length ranges) number) /\
  on_section (c_histogram c) (fun d => c_trajectories c <> None /\ sensible_histogram d (length ranges)) /\
  on_section (c_fes c) sensible_fes /\
  on_section (c_delta_f c) (fun d => sensible_delta_f d (length ranges)) /\
  on_section (c_particle_distribution c) (fun d => sensible_distribution d (length ranges)).

(** there is an action for every section, and no other *)
Definition objects (e : env) (c : config) (w : world (e_rng e)) : Prop :=
  (w_bd w <> None <-> c_birth_death c <> None) /\ (w_traj w <> None <-> c_trajectories c <> None) /\ (w_hist w <> None <-> c_histogram c <> None) /\
  (w_fes w <> None <-> c_fes c <> None) /\ (w_df w <> None <-> c_delta_f c <> None) /\ (w_pd w <> None <-> c_particle_distribution c <> None).
