(** Predicates about grid objects used in the statements *)
From Verif Require Import PyBase Model_dyn Model_grid Model_corr Spec_grid.
Open Scope R_scope.

(** a grid holding one value per point: n_dim ranges and point numbers, at least two points
    per dimension, evenly distributed from min to max *)
Definition grid_of {A} (g : grid A) (ranges : list (R * R)) (n_points : list nat) (values : list A) : Prop :=
  length ranges = length n_points /\ usable_points n_points /\
  g_ranges g = ranges /\ g_npoints g = n_points /\ g_ndim g = length n_points /\
  g_steps g = spacings ranges n_points /\
  a_shape (g_data g) = n_points /\ a_flat (g_data g) = values /\ length values = size n_points.

(** the points of a grid made with from_stepsizes: per dimension the points start at the
    minimum with the given distance, and the last one is related to the range as stated *)
Definition spaced (ranges : list (R * R)) (steps : list R) {A} (g : grid A)
    (last_ok : R * R -> R -> R -> Prop) : Prop :=
  g_steps g = steps /\ g_ndim g = length ranges /\ length (axes g) = length ranges /\
  forall d, (d < length ranges)%nat ->
    let r := nth d ranges (0, 0) in let s := nth d steps 0 in
    let a := nth d (axes g) [] in
    (1 <= length a)%nat /\
    (forall k, (k < length a)%nat -> nth k a 0 = fst r + INR k * s) /\
    last_ok r s (last a 0).

(** nd_trapz returns the number v *)
Definition integral_is (shape : list nat) (dx : list R) (flat : list R) (v : R) : Prop :=
  nd_trapz (mkArr shape flat) dx = Ok (mkArr [] [v]).
