(** Langevin dynamics and polynomial potentials in float64 arithmetic, C83 and C84 *)
From Verif Require Import Model_f64 Model_f64ld Spec_grid Spec_pot Spec_f64 Spec_f64ld Proof_f64q Proof_f64r.
Open Scope R_scope.

(** ** C83 *)
(** The constants of the thermostat: c1 = exp(-friction dt / 2) and c2 is never a nan; the stationary variance mass * kt of the momenta
    is preserved up to a relative error of 2^-49. *)
Theorem C83_constants : forall fexp dt friction kt mass, exp_ok fexp ->
  finite dt -> bpow radix2 (-100) <= val dt <= bpow radix2 100 -> finite friction -> 0 <= val friction -> val friction * val dt <= bpow radix2 900 ->
  finite kt -> bpow radix2 (-100) <= val kt <= bpow radix2 100 -> finite mass -> bpow radix2 (-100) <= val mass <= bpow radix2 100 ->
  let c1 := f_c1 fexp friction dt in let c2 := f_c2 c1 mass kt in
  finite c1 /\ 0 <= val c1 <= 1 /\ Rabs (val c1 - exp (- (val friction * val dt / 2))) <= / 2 ^ 47 /\
  finite c2 /\ 0 <= val c2 /\
  Rabs (val c1 ^ 2 * (val mass * val kt) + val c2 ^ 2 - val mass * val kt) <= / 2 ^ 49 * (val mass * val kt).
Proof. exact constants_all. Qed.
Print Assumptions C83_constants.

(** No overflow and no nan in up to 2^50 steps, for any force that is finite inside the box: the walker always has a position inside the
    box and its momentum grows at most linearly. *)
Theorem C83_run : forall fexp ranges force dt friction kt mass pos noises, exp_ok fexp ->
  finite dt -> 0 < val dt <= bpow radix2 100 -> finite friction -> 0 <= val friction ->
  finite kt -> 0 <= val kt <= bpow radix2 100 -> finite mass -> bpow radix2 (-100) <= val mass <= bpow radix2 100 ->
  Forall finite_range ranges ->
  (forall p, in_box ranges p -> length (force p) = length ranges /\ Forall (bounded (bpow radix2 200)) (force p)) ->
  Forall (fun n => noise_for ranges (fst n) /\ noise_for ranges (snd n)) noises -> (Z.of_nat (length noises) <= 2 ^ 50)%Z ->
  in_box ranges pos ->
  exists w, f_langevin fexp ranges force dt friction kt mass pos noises = Ok w /\ in_box ranges (fw_pos w) /\ Forall finite (fw_pos w) /\
    length (fw_mom w) = length ranges /\ Forall (bounded (INR (4 * length noises) * bpow radix2 300)) (fw_mom w).
Proof. exact langevin_all. Qed.
Print Assumptions C83_run.

(** The same for the polynomial potentials of the program. *)
Theorem C83_polynomial : forall fexp ranges coeffs a dt friction kt mass pos noises, exp_ok fexp ->
  finite dt -> 0 < val dt <= bpow radix2 100 -> finite friction -> 0 <= val friction ->
  finite kt -> 0 <= val kt <= bpow radix2 100 -> finite mass -> bpow radix2 (-100) <= val mass <= bpow radix2 100 ->
  poly_ok a coeffs -> length ranges = length (a_shape coeffs) ->
  Forall (fun r => bounded (bpow radix2 a) (fst r) /\ bounded (bpow radix2 a) (snd r) /\ val (fst r) <= val (snd r)) ranges ->
  Forall (fun n => noise_for ranges (fst n) /\ noise_for ranges (snd n)) noises -> (Z.of_nat (length noises) <= 2 ^ 50)%Z ->
  in_box ranges pos ->
  exists w, f_langevin fexp ranges (f_poly_force coeffs) dt friction kt mass pos noises = Ok w /\ in_box ranges (fw_pos w) /\ Forall finite (fw_pos w) /\
    length (fw_mom w) = length ranges /\ Forall (bounded (INR (4 * length noises) * bpow radix2 300)) (fw_mom w).
Proof. exact poly_langevin. Qed.
Print Assumptions C83_polynomial.

(** two steps in the double well x - 4 x^2 + x^4 between -3 and 3 with dt = 2^-7, friction 10, mass and kt 1 *)
Example C83_case : let ranges := [(f_of_Z (-3), f_of_Z 3)] in let dt := fmake 1 (-7) in
  (exists fexp, exp_ok fexp) /\ finite dt /\ bpow radix2 (-100) <= val dt <= bpow radix2 100 /\
  finite (f_of_Z 10) /\ 0 <= val (f_of_Z 10) /\ val (f_of_Z 10) * val dt <= bpow radix2 900 /\
  finite (f_of_Z 1) /\ bpow radix2 (-100) <= val (f_of_Z 1) <= bpow radix2 100 /\
  poly_ok 2 demo_well /\ length ranges = length (a_shape demo_well) /\
  Forall (fun r => bounded (bpow radix2 2) (fst r) /\ bounded (bpow radix2 2) (snd r) /\ val (fst r) <= val (snd r)) ranges /\
  Forall (fun n => noise_for ranges (fst n) /\ noise_for ranges (snd n)) [([fhalf], [fopp fhalf]); ([f_of_Z (-1)], [fzero])] /\
  in_box ranges [fhalf].
Proof. exact langevin_case. Qed.

(** ** C84 *)
(** Energies and forces of a polynomial: finite, with an error of at most n (for forces n + 1) times 2^-51 relative to the sum of the absolute
    values of all terms (n is the sum of the numbers of coefficients in all dimensions). *)
Theorem C84_energy : forall coeffs a pos, poly_ok a coeffs -> length pos = length (a_shape coeffs) -> Forall (bounded (bpow radix2 a)) pos ->
  finite (f_poly_energy coeffs pos) /\
  Rabs (val (f_poly_energy coeffs pos) - exact_poly coeffs (map val pos)) <=
    INR (fold_right Nat.add 0%nat (a_shape coeffs)) * / 2 ^ 51 * abs_poly coeffs (map Rabs (map val pos)) + bpow radix2 (-900).
Proof. exact energy_all'. Qed.
Print Assumptions C84_energy.

Theorem C84_force : forall coeffs a pos d, poly_ok a coeffs -> length pos = length (a_shape coeffs) -> Forall (bounded (bpow radix2 a)) pos -> (d < length pos)%nat ->
  exists F D D', nth_error (f_poly_force coeffs pos) d = Some F /\ finite F /\
  derivable_pt_lim (fun t => exact_poly coeffs (moved (map val pos) d t)) (nth d (map val pos) 0) D /\
  derivable_pt_lim (fun t => abs_poly coeffs (moved (map Rabs (map val pos)) d t)) (nth d (map Rabs (map val pos)) 0) D' /\
  Rabs (val F - - D) <= INR (fold_right Nat.add 0%nat (a_shape coeffs) + 1) * / 2 ^ 51 * D' + bpow radix2 (-900).
Proof. exact force_all. Qed.
Print Assumptions C84_force.

Example C84_case : poly_ok 2 demo_poly2 /\ length [f_of_Z 2; f_of_Z 3] = length (a_shape demo_poly2) /\
  Forall (bounded (bpow radix2 2)) [f_of_Z 2; f_of_Z 3] /\ exact_poly demo_poly2 [2; 3] = 37 /\
  feq (f_poly_energy demo_poly2 [f_of_Z 2; f_of_Z 3]) (f_of_Z 37) = true /\
  map (fun f => feq f (f_of_Z (-15))) (f_poly_force demo_poly2 [f_of_Z 2; f_of_Z 3]) = [true; false].
Proof. exact poly_case. Qed.
