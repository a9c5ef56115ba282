(** Vocabulary for the Mueller-Brown potential on float64 numbers *)
From Verif Require Export Model_f64mb Spec_f64sim.
From Flocq Require Import Core.Raux.
Open Scope R_scope.

(** np.exp for arguments of moderate size of both signs *)
Definition exp_both_ok (fexp : f64 -> f64) : Prop :=
  forall x, finite x -> Rabs (val x) <= 600 -> finite (fexp x) /\ Rabs (val (fexp x) - exp (val x)) <= / 2 ^ 50 * exp (val x).
(** the square of a number: an error of at most two units in the last place *)
Definition square_ok (fsq : f64 -> f64) : Prop :=
  forall x, finite x -> Rabs (val x) <= bpow radix2 100 ->
    finite (fsq x) /\ Rabs (val (fsq x) - val x ^ 2) <= / 2 ^ 51 * val x ^ 2 + bpow radix2 (-1000).

(** the sum of the four terms with these amplitudes *)
Definition mb_sum (a1 a2 a3 a4 x y : R) : R :=
  a1 * mb_term1 x y + a2 * mb_term2 x y + a3 * mb_term3 x y + a4 * mb_term4 x y.
