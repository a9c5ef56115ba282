(** Specification of diffusion and drift (C104) *)
From Coq Require Import Reals.
From Verif Require Import PyBase Model_dyn Spec_ld Spec_well.
Open Scope R_scope.

(** Along axis d the potential has the same force everywhere and no walls. *)
Definition constant_force (pot : potential) (d : nat) (F : R) : Prop :=
  pot_bc pot = None /\ force_size pot /\ (d < pot_ndim pot)%nat /\
  forall x, length x = pot_ndim pot -> nth d (pot_force pot x) 0 = F.

(** way of a walker along axis d in n steps *)
Definition displacement (d : nat) (walker : nat -> particle) (n : nat) : R :=
  nth d (p_pos (walker n)) 0 - nth d (p_pos (walker 0%nat)) 0.

(** the mean of the first N random numbers is 0 *)
Definition centered {W} (mean : (W -> R) -> R) (N : nat) (noise : nat -> W -> R) : Prop :=
  forall i, (i < N)%nat -> mean (noise i) = 0.

(** Diffusion coefficient kt / (m friction), times x coth x with x = friction dt / 2 for the finite time step *)
Definition diffusion (mass kt friction dt : R) : R :=
  let x := friction * dt / 2 in kt / (mass * friction) * (x * ((exp x + exp (- x)) / (exp x - exp (- x)))).

(** for the example: a constant force along both axes *)
Definition tilted (F : R) : potential := mkPot 2 [(-1, 1); (-1, 1)] (fun x => - F * (nth 0 x 0 + nth 1 x 0)) (map (fun _ => F)) None.
