(** Whole simulations in float64 arithmetic, C94 *)
From Verif Require Import Model_f64sim Spec_f64sim Proof_f64sim Proof_f64sim2.
From Flocq Require Import Core.Raux.
Open Scope R_scope.

(** ** C94 *)
(** A simulation of n steps in a box ends without an exception; the number of walkers is unchanged, and every walker is inside the box, has finite
    position, momentum, force and energy, and its energy and force are those of its position. In recalculation mode the generator must not draw an exact 0. *)
Theorem C94_run : forall fexp flog np_sum rng s, exp_ok fexp -> log_all_ok flog -> sums np_sum -> frng_ok rng -> sim_ok s ->
  forall positions n g1 g2, Forall (in_box (fs_ranges s)) positions -> (2 <= length positions)%nat -> (Z.of_nat (length positions) <= 10000)%Z ->
  (Z.of_nat n <= 2 ^ 50)%Z -> (fs_recalc s = true -> never_zero rng) ->
  exists st, f_simulate fexp flog np_sum rng s n positions g1 g2 = Ok st /\ length (st_ps rng st) = length positions /\ Forall (healthy s n) (st_ps rng st).
Proof. exact simulate_fine. Qed.
Print Assumptions C94_run.

(** All polynomial potentials of C84 qualify: |coordinates| <= 2^a in the box, coefficients and number of terms as in [poly_ok]. *)
Theorem C94_polynomial : forall a coeffs s, poly_ok a coeffs -> length (fs_ranges s) = length (a_shape coeffs) -> (1 <= length (fs_ranges s) <= 3)%nat ->
  Forall (fun r => bounded (bpow radix2 a) (fst r) /\ bounded (bpow radix2 a) (snd r) /\ val (fst r) <= val (snd r)) (fs_ranges s) ->
  fs_force s = f_poly_force coeffs -> fs_energy s = f_poly_energy coeffs ->
  moderate (fs_dt s) -> finite (fs_friction s) /\ 0 <= val (fs_friction s) -> moderate (fs_kt s) -> moderate (fs_mass s) ->
  (1 <= fs_stride s <= 2 ^ 50)%Z -> length (fs_bw s) = length (fs_ranges s) /\ Forall moderate (fs_bw s) -> moderate (fs_rate s) ->
  (forall pos, Forall (in_box (fs_ranges s)) pos -> length (fs_corr s pos) = length pos /\ Forall (bounded (bpow radix2 200)) (fs_corr s pos)) ->
  sim_ok s.
Proof. exact poly_sim. Qed.
Print Assumptions C94_polynomial.

(** Without the condition on exact zeros the simulation can end with an UnboundLocalError: two walkers at the same place have the rate 0, and
    numpy's random() may draw 0. *)
Theorem C94_zero : exists rng s positions g1 g2, frng_ok rng /\ sim_ok s /\ fs_recalc s = true /\ Forall (in_box (fs_ranges s)) positions /\ length positions = 2%nat /\
  forall fexp flog, exp_ok fexp -> log_all_ok flog -> f_simulate fexp flog left_sum rng s 1 positions g1 g2 = Err UnboundLocalError.
Proof. exact zero_random. Qed.
Print Assumptions C94_zero.

Example C94_case : exists fexp flog, exp_ok fexp /\ log_all_ok flog /\ sums left_sum /\ frng_ok (const_frng fhalf) /\ never_zero (const_frng fhalf) /\
  sim_ok (demo_fsim 5 true) /\ Forall (in_box (fs_ranges (demo_fsim 5 true))) [[fhalf]; [f_of_Z (-1)]; [fhalf]].
Proof. exact simulation_case. Qed.
