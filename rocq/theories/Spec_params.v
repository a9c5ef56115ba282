(** How the options of the input file determine the simulation (C79, C80) *)
From Verif Require Import PyBase Model_xr Model_input Spec_input Spec_rng Model_dyn Model_pot Model_bd Model_setup Model_main Spec_main
  Spec_grid Spec_pot Spec_setup Spec_hist Spec_ld Model_traj Model_histaction Model_fes Model_rec.
Open Scope string_scope.
Open Scope Z_scope.

(** * Values of options (C80) *)

Definition not_given (secs : list (string * section)) (name key : string) : Prop := forall text, ~ given secs name key text.

(** the option is given, and its text stands for v *)
Definition value_is (cv : conv) (secs : list (string * section)) (name key : string) (t : ktype) (v : oval) : Prop :=
  exists text, given secs name key text /\ converts cv t text v.

(** the defaults in the documentation *)
Definition default_of (name key : string) : oval :=
  if String.eqb name "particles" && String.eqb key "mass" then VFloat (Fin 1)
  else if String.eqb name "birth-death" && String.eqb key "recalculate-probabilities" then VBool false
  else if String.eqb name "potential" && String.eqb key "n_dim" then VInt 2
  else VNone.

(** v is what the text says, or the default if there is none *)
Definition stated (cv : conv) (secs : list (string * section)) (name key : string) (t : ktype) (v : oval) : Prop :=
  value_is cv secs name key t v \/ not_given secs name key /\ v = default_of name key.

(** of the numbered options pos1, pos2, ... those before the first missing number *)
Definition in_sequence (secs : list (string * section)) (name key : string) : Prop :=
  forall pre suf i, In (pre, suf) [("pos", ""); ("state", "-min"); ("state", "-max")] -> key = prefixed pre (S i) suf ->
  forall j, (j <= i)%nat -> exists text, given secs name (prefixed pre (S j) suf) text.

(** the parsed options of a section, and the value of one of them *)
Definition options_of (c : config) (name : string) : option dict :=
  if String.eqb name "ld" then Some (c_ld c)
  else if String.eqb name "potential" then Some (c_potential c)
  else if String.eqb name "particles" then Some (c_particles c)
  else if String.eqb name "birth-death" then c_birth_death c
  else if String.eqb name "trajectories" then c_trajectories c
  else if String.eqb name "histogram" then c_histogram c
  else if String.eqb name "fes" then c_fes c
  else if String.eqb name "delta-f" then c_delta_f c
  else if String.eqb name "particle-distribution" then c_particle_distribution c
  else None.
Definition option_value (c : config) (name key : string) : oval :=
  match options_of c name with
  | Some d => match assoc key d with Some v => v | None => VNone end
  | None => VNone
  end.

(** options without which an input is not accepted *)
Inductive required (cv : conv) (secs : list (string * section)) : string -> string -> Prop :=
| rq_ld k : In k ["type"; "timestep"; "n_steps"] -> required cv secs "ld" k
| rq_ld_bp k : given secs "ld" "type" "bussi-parinello" -> In k ["kt"; "friction"] -> required cv secs "ld" k
| rq_pot : required cv secs "potential" "type"
| rq_pot_poly k : given secs "potential" "type" "polynomial" -> In k ["n_dim"; "min"; "max"] -> required cv secs "potential" k
| rq_pot_n : given secs "potential" "type" "polynomial" -> ~ one_dim cv secs -> required cv secs "potential" "coeffs-file"
| rq_part k : In k ["number"; "initial-distribution"] -> required cv secs "particles" k
| rq_part_frac : given secs "particles" "initial-distribution" "fractions-pos" -> required cv secs "particles" "fractions"
| rq_bd k : has_section secs "birth-death" = true -> In k ["stride"; "kernel-bandwidth"] -> required cv secs "birth-death" k
| rq_hist k : has_section secs "histogram" = true -> In k ["min"; "max"; "bins"] -> required cv secs "histogram" k
| rq_fes : has_section secs "fes" = true -> required cv secs "fes" "kt"
| rq_state name k : In name ["delta-f"; "particle-distribution"] -> has_section secs name = true ->
    In k ["state1-min"; "state1-max"] -> required cv secs name k.

(** * From the options to the simulation (C79) *)
Section simulation.
Context (cv : conv) (secs : list (string * section)).

Definition number_is (name key : string) (r : R) : Prop := value_is cv secs name key KFloat (VFloat (Fin r)).
Definition numbers_are (name key : string) (l : list R) : Prop := value_is cv secs name key KFloats (VFloats (map Fin l)).
Definition integer_is (name key : string) (z : Z) : Prop := value_is cv secs name key KInt (VInt z).
Definition integers_are (name key : string) (l : list Z) : Prop := value_is cv secs name key KInts (VInts l).
(** options that may be missing *)
Definition optional_integer_is (name key : string) (o : option Z) : Prop :=
  match o with Some z => integer_is name key z | None => not_given secs name key end.
(** the option is a text that is not empty *)
Definition named (name key : string) (b : bool) : Prop :=
  if b then exists text, given secs name key text /\ text <> "" else not_given secs name key \/ given secs name key "".

(** the generator made from the seed in the section; without seed from the entropy of the operating system *)
Definition seeded (name : string) (rng : rng_if) (os g : rng_st rng) : Prop :=
  (exists z, integer_is name "seed" z /\ 0 <= z /\ g = r_default rng z) \/ not_given secs name "seed" /\ g = os.
(** the generator of the birth-death action: 1000 is added, 0 means no seed *)
Definition seeded_1000 (name : string) (rng : rng_if) (os g : rng_st rng) : Prop :=
  (exists z, integer_is name "seed" z /\ z <> 0 /\ 0 <= z + 1000 /\ g = r_default rng (z + 1000)) \/
  (not_given secs name "seed" \/ integer_is name "seed" 0) /\ g = os.

(** time step, number of steps and parameters of the thermostat; the overdamped dynamics has kt = 1 *)
Definition dynamics_given (n : Z) (ld : ldpar) : Prop :=
  integer_is "ld" "n_steps" n /\ number_is "ld" "timestep" (ld_dt ld) /\
  (given secs "ld" "type" "bussi-parinello" /\
     (exists friction, ld_kind ld = BussiParinello friction /\ number_is "ld" "friction" friction) /\ number_is "ld" "kt" (ld_kt ld) \/
   given secs "ld" "type" "overdamped" /\ ld_kind ld = Overdamped /\ ld_kt ld = 1%R).

Definition boundary_given (bc : option bcond) : Prop :=
  match bc with
  | Some Reflective => given secs "potential" "boundary-condition" "reflective"
  | Some Periodic => given secs "potential" "boundary-condition" "periodic"
  | None => ~ given secs "potential" "boundary-condition" "reflective" /\ ~ given secs "potential" "boundary-condition" "periodic"
  end.

(** a polynomial in one dimension with coefficients in the input *)
Definition polynomial_given (pot : potential) : Prop :=
  exists lo hi a, number_is "potential" "min" lo /\ number_is "potential" "max" hi /\ numbers_are "potential" "coeffs" a /\
    pot_ndim pot = 1%nat /\ pot_ranges pot = [(lo, hi)] /\
    forall x, pot_energy pot [x] = polynomial [length a] a [x].
(** a polynomial in several dimensions with coefficients in a file ([lines]: orders and value) *)
Definition file_polynomial_given (file : string -> res (list (list R))) (pot : potential) : Prop :=
  exists los his name m rows, numbers_are "potential" "min" los /\ numbers_are "potential" "max" his /\
    given secs "potential" "coeffs-file" name /\ integer_is "potential" "n_dim" (Z.of_nat m) /\ file name = Ok rows /\
    pot_ndim pot = m /\ pot_ranges pot = combine los his /\
    forall lines, rows = map line_numbers lines -> Forall (fun l => length (orders l) = m) lines ->
      (forall l l', In l lines -> In l' lines -> length (snd l) = length (snd l')) ->
      forall pos, length pos = m ->
        pot_energy pot pos = nsum (map (fun d => S (highest lines d)) (seq 0 m))
          (fun idx => match listed lines idx with Some v => v | None => 0 end * monomial pos idx)%R.
(** the Mueller-Brown potential (see C31, C58) times a factor; 0 stands for no factor *)
Definition mueller_brown_given (pot : potential) : Prop :=
  exists s, ((number_is "potential" "scaling-factor" s /\ s <> 0%R) \/
             (number_is "potential" "scaling-factor" 0 \/ not_given secs "potential" "scaling-factor") /\ s = 1%R) /\
    pot_ndim pot = 2%nat /\ pot_ranges pot = [(-1.5, 1.5); (-0.5, 2.5)]%R /\
    forall x y, pot_energy pot [x; y] = (s * (mb_documented x y - 5 * mb_term3 x y) + 30.33319242243656)%R.
Definition potential_given (file : string -> res (list (list R))) (pot : potential) : Prop :=
  boundary_given (pot_bc pot) /\
  (given secs "potential" "type" "polynomial" /\ one_dim cv secs /\ polynomial_given pot \/
   given secs "potential" "type" "polynomial" /\ ~ one_dim cv secs /\ file_polynomial_given file pot \/
   given secs "potential" "type" "mueller-brown" /\ mueller_brown_given pot) /\
  forall pos, length pos = pot_ndim pot -> is_minus_gradient (pot_energy pot) pos (pot_force pot pos).

(** positions drawn one after the other *)
Inductive drawn {S} (draw : S -> list R -> S -> Prop) : S -> list (list R) -> Prop :=
| drawn_nil g : drawn draw g []
| drawn_cons g x g' xs : draw g x g' -> drawn draw g' xs -> drawn draw g (x :: xs).
(** coordinates uniformly from the ranges *)
Fixpoint uniform_draw (rng : rng_if) (ranges : list (R * R)) (g : rng_st rng) (x : list R) (g' : rng_st rng) : Prop :=
  match ranges, x with
  | [], [] => g' = g
  | (lo, hi) :: rs, a :: x' => exists g1, r_uniform rng lo hi g = (a, g1) /\ uniform_draw rng rs g1 x' g'
  | _, _ => False
  end.
(** one of the given positions, of which unused ones may contain infinite numbers *)
Definition choice_draw (rng : rng_if) (positions : list (list xreal)) (g : rng_st rng) (x : list R) (g' : rng_st rng) : Prop :=
  exists i, r_choice rng (length positions) g = (i, g') /\ nth_error positions i = Some (map Fin x).
(** pos1, pos2, ... *)
Definition positions_in_input (positions : list (list xreal)) : Prop :=
  (forall i p, nth_error positions i = Some p -> value_is cv secs "particles" (prefixed "pos" (S i) "") KFloats (VFloats p)) /\
  not_given secs "particles" (prefixed "pos" (S (length positions)) "").
(** so many of the first, of the second, ... position *)
Definition placed (positions : list (list xreal)) (counts : list Z) : list (list xreal) :=
  concat (map (fun pn => repeat (fst pn) (Z.to_nat (snd pn))) (combine positions counts)).

Definition walkers_given (rng : rng_if) (os : rng_st rng) (ld : ldpar) (ps : list particle) : Prop :=
  (exists mass, (number_is "particles" "mass" mass \/ not_given secs "particles" "mass" /\ mass = 1%R) /\
     Forall (at_rest ld mass) ps) /\
  (given secs "particles" "initial-distribution" "random-global" /\ integer_is "particles" "number" (Z.of_nat (length ps)) /\
     (exists g, seeded "particles" rng os g /\ drawn (uniform_draw rng (pot_ranges (ld_pot ld))) g (map p_pos ps)) \/
   given secs "particles" "initial-distribution" "random-pos" /\ integer_is "particles" "number" (Z.of_nat (length ps)) /\
     (exists g positions, seeded "particles" rng os g /\ positions_in_input positions /\
        drawn (choice_draw rng positions) g (map p_pos ps)) \/
   given secs "particles" "initial-distribution" "fractions-pos" /\
     exists positions fractions counts, positions_in_input positions /\
       value_is cv secs "particles" "fractions" KFloats (VFloats fractions) /\ length fractions = length positions /\
       integer_is "particles" "number" (fold_right Z.add 0 counts) /\ length counts = length positions /\
       map (fun p => map Fin (p_pos p)) ps = placed positions counts).

(** names of the variants of the birth-death moves *)
Definition variant_called (v : variant) : list string :=
  match v with VOrig => ["original"; "orig"] | VAdd => ["additive"; "add"] | VMult => ["multiplicative"; "mult"] end.
Definition variant_given (v : variant) : Prop :=
  (exists text, given secs "birth-death" "approximation-variant" text /\ In text (variant_called v)) \/
  named "birth-death" "approximation-variant" false /\
    ((exists text, given secs "birth-death" "correction-variant" text /\ In text (variant_called v)) \/
     named "birth-death" "correction-variant" false /\ v = VOrig).
Definition birth_death_given (rng : rng_if) (os : rng_st rng) (ld : ldpar) (par : bdpar) (g : rng_st rng) : Prop :=
  integer_is "birth-death" "stride" (bd_stride par) /\ bd_dt par = (ld_dt ld * IZR (bd_stride par))%R /\
  (pot_ndim (ld_pot ld) = 1%nat /\ (exists h, number_is "birth-death" "kernel-bandwidth" h /\ bd_bw par = [h]) \/
   pot_ndim (ld_pot ld) <> 1%nat /\ numbers_are "birth-death" "kernel-bandwidth" (bd_bw par) /\ length (bd_bw par) = pot_ndim (ld_pot ld)) /\
  bd_kt par = ld_kt ld /\
  (number_is "birth-death" "exponential-factor" (bd_rate par) \/
   not_given secs "birth-death" "exponential-factor" /\ bd_rate par = 1%R) /\
  (value_is cv secs "birth-death" "recalculate-probabilities" KBool (VBool (bd_recalc par)) \/
   not_given secs "birth-death" "recalculate-probabilities" /\ bd_recalc par = false) /\
  variant_given (bd_variant par) /\
  optional_integer_is "birth-death" "stats-stride" (bd_stats_stride par) /\
  named "birth-death" "stats-filename" (bd_to_file par) /\
  seeded_1000 "birth-death" rng os g.

(** the bins of the histogram (of the dimensions with increasing ranges) *)
Definition bins_given (ndim : nat) (edges : list (list R)) : Prop :=
  exists ranges bins,
    (ndim = 1%nat /\ (exists lo hi b, number_is "histogram" "min" lo /\ number_is "histogram" "max" hi /\
        integer_is "histogram" "bins" b /\ ranges = [(lo, hi)] /\ bins = [b]) \/
     ndim <> 1%nat /\ integers_are "histogram" "bins" bins /\ exists los his, numbers_are "histogram" "min" los /\
        numbers_are "histogram" "max" his /\ ranges = combine los his) /\
    length ranges = ndim /\ length bins = ndim /\ length edges = ndim /\
    forall i lo hi b, nth_error ranges i = Some (lo, hi) -> nth_error bins i = Some b -> (lo < hi)%R ->
      0 < b /\ uniform_edges (Z.to_nat b) (lo, hi) (nth i edges []).

(** strides with a default value *)
Definition stride_is (name key : string) (default z : Z) : Prop :=
  0 < z /\ (integer_is name key z \/ not_given secs name key /\ z = default).
Definition exists_if {A} (b : bool) (o : option A) : Prop := if b then o <> None else o = None.
Definition flag (name key : string) (b : bool) : Prop :=
  value_is cv secs name key KBool (VBool b) \/ not_given secs name key /\ b = false.

(** when the outputs are recorded and written, and whether they are written to files *)
Definition trajectory_output (t : traj) : Prop :=
  stride_is "trajectories" "stride" 1 (tr_stride t) /\ stride_is "trajectories" "write-stride" 100 (tr_wstride t) /\
  (exists b, named "trajectories" "filename" b /\ exists_if b (tr_files t)) /\
  (exists b, flag "trajectories" "momentum" b /\ exists_if b (tr_mom t)).
Definition histogram_output (h : histact) : Prop :=
  stride_is "histogram" "stride" 1 (ha_stride h) /\
  (integers_are "histogram" "reset" (ha_reset h) \/ not_given secs "histogram" "reset" /\ ha_reset h = []) /\
  optional_integer_is "histogram" "write-stride" (ha_wstride h) /\ named "histogram" "filename" (ha_filename h).
Definition fes_output (f : fesact) : Prop :=
  optional_integer_is "fes" "stride" (fa_stride f) /\ optional_integer_is "fes" "write-stride" (fa_wstride f) /\
  optional_integer_is "fes" "plot-stride" (fa_pstride f) /\
  named "fes" "filename" (fa_filename f) /\ named "fes" "plot-filename" (fa_plotname f).
(** without stride only at the end (0) *)
Definition recorder_output {A} (name : string) (r : recorder A) : Prop :=
  (not_given secs name "stride" /\ rc_stride r = 0 \/
   integer_is name "stride" (rc_stride r) /\ stride_is name "write-stride" (rc_stride r * 100) (rc_wstride r)) /\
  exists b, named name "filename" b /\ exists_if b (rc_file r).

(** the boxes of the states, coordinate by coordinate up to the shorter one of minimum and maximum *)
Definition states_in_input (name : string) (states : list (list (xreal * xreal))) : Prop :=
  (forall i st, nth_error states i = Some st -> exists lo hi,
     value_is cv secs name (prefixed "state" (S i) "-min") KFloats (VFloats lo) /\
     value_is cv secs name (prefixed "state" (S i) "-max") KFloats (VFloats hi) /\ st = combine lo hi) /\
  not_given secs name (prefixed "state" (S (length states)) "-min").
End simulation.

(** * An input in two dimensions for the examples *)
Definition plane_input : list (string * section) :=
  [("ld", [("type", "bussi-parinello"); ("timestep", "0.1"); ("n_steps", "4"); ("kt", "2"); ("friction", "1"); ("seed", "4")]);
   ("potential", [("type", "mueller-brown"); ("scaling-factor", "0.1"); ("boundary-condition", "reflective")]);
   ("particles", [("number", "4"); ("initial-distribution", "random-pos"); ("pos1", "0,1"); ("pos2", "1,2"); ("mass", "2")]);
   ("birth-death", [("stride", "1"); ("kernel-bandwidth", "0.1,1"); ("seed", "100"); ("exponential-factor", "2"); ("recalculate-probabilities", "yes")]);
   ("trajectories", [("stride", "4"); ("momentum", "on")])].
