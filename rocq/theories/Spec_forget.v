(** Specification of runs that forget their start (C109) *)
From Coq Require Import Reals.
From Verif Require Import PyBase Model_dyn Spec_grid.
Open Scope R_scope.

(** square of the distance of two points *)
Definition distance2 (n_dim : nat) (x y : vec) : R := total (map (fun d => (nth d x 0 - nth d y 0) ^ 2) (seq 0 n_dim)).

(** A potential with curvature between k and L: the force pulls any two points together at least like a spring with constant k and
    differs between them by at most L times their distance. *)
Definition confining (pot : potential) (k L : R) : Prop :=
  forall x y, length x = pot_ndim pot -> length y = pot_ndim pot ->
  total (map (fun d => (nth d x 0 - nth d y 0) * (nth d (pot_force pot x) 0 - nth d (pot_force pot y) 0)) (seq 0 (pot_ndim pot))) <= - k * distance2 (pot_ndim pot) x y /\
  distance2 (pot_ndim pot) (pot_force pot x) (pot_force pot y) <= L ^ 2 * distance2 (pot_ndim pot) x y.

(** factor of the squared distance per step *)
Definition approach (k L dt : R) : R := 1 - 2 * k * dt + L ^ 2 * dt ^ 2.

(** for the example: two walkers at x and y in a potential in two dimensions *)
Definition pair_at (pot : potential) (x y : vec) : list particle :=
  [mkP x [0; 0] 1 (pot_energy pot x) (pot_force pot x) 0; mkP y [0; 0] 1 (pot_energy pot y) (pot_force pot y) 0].
