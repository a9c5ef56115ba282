(** Vocabulary for the Langevin dynamics and polynomial potentials on float64 numbers *)
From Verif Require Export Spec_f64 Model_f64ld Spec_grid Spec_pot.
From Flocq Require Export Core.Core.
Open Scope R_scope.

(** a number (not nan or infinite) of at most this size *)
Definition bounded (B : R) (x : f64) : Prop := finite x /\ Rabs (val x) <= B.
(** the position lies in the box *)
Definition in_box (ranges : list (f64 * f64)) (pos : list f64) : Prop := Forall2 inside ranges pos.
(** one random number per dimension, none larger than 2^10 (numpy's normal random numbers are smaller than 20) *)
Definition noise_for (ranges : list (f64 * f64)) (noise : list f64) : Prop :=
  length noise = length ranges /\ Forall (bounded (bpow radix2 10)) noise.
Definition finite_range (r : f64 * f64) : Prop :=
  bounded (bpow radix2 900) (fst r) /\ bounded (bpow radix2 900) (snd r) /\ val (fst r) <= val (snd r).

(** An array of coefficients: as many as the shape says, none larger than 2^40, and not too many for coordinates up to 2^a *)
Definition poly_ok (a : Z) (coeffs : arr f64) : Prop :=
  Forall (fun n => (0 < n)%nat) (a_shape coeffs) /\ length (a_flat coeffs) = fold_right Nat.mul 1%nat (a_shape coeffs) /\
  Forall (bounded (bpow radix2 40)) (a_flat coeffs) /\
  (0 <= a)%Z /\ ((a + 3) * Z.of_nat (fold_right Nat.add 0%nat (a_shape coeffs)) <= 100)%Z /\
  (Z.of_nat (fold_right Nat.mul 1%nat (a_shape coeffs)) <= 2 ^ 40)%Z.
(** the exact polynomial with these coefficients, and the one with their absolute values *)
Definition exact_poly (coeffs : arr f64) (pos : vec) : R := polynomial (a_shape coeffs) (map val (a_flat coeffs)) pos.
Definition abs_poly (coeffs : arr f64) (pos : vec) : R := polynomial (a_shape coeffs) (map Rabs (map val (a_flat coeffs))) pos.
