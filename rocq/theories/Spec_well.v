(** Specification of averages over random numbers and of the equilibrium in a harmonic well (C101) *)
From Coq Require Import Reals.
From Verif Require Import PyBase Model_dyn Spec_ld.
Open Scope R_scope.

(** [mean f] is the average of a quantity f over all outcomes w of the random numbers. *)
Definition is_mean {W : Type} (mean : (W -> R) -> R) : Prop :=
  (forall f g, (forall w, f w = g w) -> mean f = mean g) /\
  (forall a f g, mean (fun w => a * f w + g w) = a * mean f + mean g) /\
  (forall f, (forall w, 0 <= f w) -> 0 <= mean f) /\
  mean (fun _ => 1) = 1.

(** The state of a generator after i calls of standard_normal(n), and the numbers of call number i (from 0) *)
Fixpoint after_draws (rng : rng_if) (n i : nat) (g : rng_st rng) : rng_st rng :=
  match i with O => g | S i' => after_draws rng n i' (snd (r_normal rng n g)) end.
Definition draw (rng : rng_if) (n i : nat) (g : rng_st rng) : vec := fst (r_normal rng n (after_draws rng n i g)).
Definition sized (rng : rng_if) : Prop := forall n g, length (fst (r_normal rng n g)) = n.

(** The first N numbers have unit variance and are not correlated with each other or with the initial position and momentum. *)
Definition white {W} (mean : (W -> R) -> R) (N : nat) (noise : nat -> W -> R) (x0 p0 : W -> R) : Prop :=
  (forall i, (i < N)%nat -> mean (fun w => noise i w * noise i w) = 1) /\
  (forall i j, (i < N)%nat -> (j < N)%nat -> i <> j -> mean (fun w => noise i w * noise j w) = 0) /\
  (forall i, (i < N)%nat -> mean (fun w => x0 w * noise i w) = 0 /\ mean (fun w => p0 w * noise i w) = 0).

(** Along axis d the potential is a harmonic well without walls: force - k x. *)
Definition well (pot : potential) (d : nat) (k : R) : Prop :=
  pot_bc pot = None /\ force_size pot /\ (d < pot_ndim pot)%nat /\
  forall x, length x = pot_ndim pot -> nth d (pot_force pot x) 0 = - k * nth d x 0.

(** the walker after n steps of a simulation with this walker alone *)
Definition follows (rng : rng_if) (ld : ldpar) (p : particle) (g : rng_st rng) (walker : nat -> particle) : Prop :=
  forall n, exists g', ld_steps rng ld n [p] g = Ok ([walker n], g').

(** a walker as set up by add_particle, at any position and with any momentum *)
Definition set_up (ld : ldpar) (friction mass : R) (p : particle) : Prop :=
  right_size (pot_ndim (ld_pot ld)) p /\ consistent (ld_pot ld) p /\ p_mass p = mass /\
  p_c2 p = ld_c2 (ld_c1 friction (ld_dt ld)) mass (ld_kt ld).

(** mean square of the position along axis d, mean product with the momentum, mean square of the momentum *)
Definition moments {W} (mean : (W -> R) -> R) (d : nat) (p : W -> particle) (X Y Z : R) : Prop :=
  mean (fun w => nth d (p_pos (p w)) 0 * nth d (p_pos (p w)) 0) = X /\
  mean (fun w => nth d (p_pos (p w)) 0 * nth d (p_mom (p w)) 0) = Y /\
  mean (fun w => nth d (p_mom (p w)) 0 * nth d (p_mom (p w)) 0) = Z.

(** canonical averages with time step dt: equipartition for the momentum; the position has kt / k up to a factor close to 1 *)
Definition mean_square_position (k mass kt dt : R) : R := kt / k / (1 - k * dt ^ 2 / (4 * mass)).
Definition mean_square_momentum (mass kt : R) : R := mass * kt.
(** the same for the overdamped dynamics, where kt = 1 *)
Definition mean_square_overdamped (k dt : R) : R := 1 / k / (1 - k * dt / 2).

(** for the example: average over n tosses of a coin with the values 1 and -1 *)
Fixpoint coins (n : nat) (f : list R -> R) : R :=
  match n with O => f [] | S n' => (coins n' (fun w => f (1 :: w)) + coins n' (fun w => f (-1 :: w))) / 2 end.
(** a generator that returns one toss after the other *)
Definition coin_rng : rng_if := {| rng_st := list R; r_default := fun _ => [];
  r_normal := fun n s => (repeat (hd 0 s) n, tl s);
  r_random := fun n s => (repeat 0 n, s); r_shuffle := fun l s => (l, s); r_integers := fun _ s => (0%nat, s);
  r_uniform := fun a _ s => (a, s); r_choice := fun _ s => (0%nat, s) |}.
(** start: the first toss decides about the position, the second one about the momentum, the others are left for the generator *)
Definition coin_start (ld : ldpar) (c2 sx sp : R) (w : list R) : particle :=
  let pos := [sx * nth 0 w 0; 0] in
  mkP pos [sp * nth 1 w 0; 0] 1 (pot_energy (ld_pot ld) pos) (pot_force (ld_pot ld) pos) c2.
Definition coin_state (w : list R) : rng_st coin_rng := tl (tl w).
