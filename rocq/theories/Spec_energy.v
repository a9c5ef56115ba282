(** Energy of walkers, harmonic potentials *)
From Coq Require Import Reals List.
From Verif Require Import PyBase Model_dyn Spec_grid.
Import ListNotations.
Open Scope R_scope.

(** sum of f 0 ... f (n-1) *)
Definition sum_to (n : nat) (f : nat -> R) : R := total (map f (seq 0 n)).

(** kinetic plus potential energy of a walker *)
Definition kinetic_energy (p : particle) : R :=
  sum_to (length (p_mom p)) (fun d => (nth d (p_mom p) 0) ^ 2 / (2 * p_mass p)).
Definition walker_energy (pot : potential) (p : particle) : R :=
  kinetic_energy p + pot_energy pot (p_pos p).

(** U(x) = e0 + sum_d k_d/2 (x_d - c_d)^2 *)
Definition harmonic (pot : potential) (e0 : R) (k c : nat -> R) : Prop :=
  forall x, length x = pot_ndim pot ->
  pot_energy pot x = e0 + sum_to (pot_ndim pot) (fun d => k d / 2 * (nth d x 0 - c d) ^ 2) /\
  length (pot_force pot x) = pot_ndim pot /\
  forall d, (d < pot_ndim pot)%nat -> nth d (pot_force pot x) 0 = - (k d * (nth d x 0 - c d)).
