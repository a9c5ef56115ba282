(** Vocabulary for C105 *)
From Verif Require Export Model_f64many Spec_f64bd.
From Flocq Require Import Core.Raux.
Open Scope R_scope.

(** Python's power of floats: finite with a small relative error for the bases and exponents needed here *)
Definition pow_ok (fpow : f64 -> f64 -> f64) : Prop :=
  forall x y, finite x -> finite y -> 1 <= val x <= 8 -> 0 <= val y <= 2 ->
  finite (fpow x y) /\ Rabs (val (fpow x y) - Rpower (val x) (val y)) <= / 2 ^ 50 * Rpower (val x) (val y).
