(** Specification of simulations with many walkers (C107) *)
From Coq Require Import Reals.
From Verif Require Import PyBase Model_dyn Spec_grid Spec_ld Spec_well Spec_diffusion.
Open Scope R_scope.

(** the walkers after n steps of a simulation without birth-death moves *)
Definition crowd_follows (rng : rng_if) (ld : ldpar) (ps : list particle) (g : rng_st rng) (crowd : nat -> list particle) : Prop :=
  forall n, exists g', ld_steps rng ld n ps g = Ok (crowd n, g').

(** walker number i (from 0) *)
Definition nobody : particle := mkP [] [] 0 0 [] 0.
Definition walker_of (i : nat) (ps : list particle) : particle := nth i ps nobody.

(** A generator that deals prepared vectors of random numbers in turn (cut or filled with 0 to the requested length). *)
Definition fit (n : nat) (x : vec) : vec := firstn n (x ++ repeat 0 n).
Definition prepared : rng_if := {| rng_st := (nat -> vec) * nat; r_default := fun _ => (fun _ => [], 0%nat);
  r_normal := fun n s => (fit n (fst s (snd s)), (fst s, S (snd s)));
  r_random := fun n s => (repeat 0 n, s); r_shuffle := fun l s => (l, s); r_integers := fun _ s => (0%nat, s);
  r_uniform := fun a _ s => (a, s); r_choice := fun _ s => (0%nat, s) |}.

(** calls of the generator per walker and step *)
Definition calls (kind : ldkind) : nat := match kind with BussiParinello _ => 2 | Overdamped => 1 end.

(** In every step the walkers draw their numbers one after the other; with m walkers and c calls for each of them, the vector number k of
    walker i has this number in the common sequence. *)
Definition place_in_sequence (c m i k : nat) : nat := c * (m * (k / c) + i) + k mod c.
Definition dealt (rng : rng_if) (ld : ldpar) (m i : nat) (g : rng_st rng) (k : nat) : vec :=
  draw rng (pot_ndim (ld_pot ld)) (place_in_sequence (calls (ld_kind ld)) m i k) g.

(** average of a quantity over all walkers *)
Definition over_walkers (f : particle -> R) (ps : list particle) : R := total (map f ps) / INR (length ps).

(** positions and momenta along axis d of two walkers are not correlated *)
Definition uncorrelated {W} (mean : (W -> R) -> R) (d : nat) (p q : W -> particle) : Prop :=
  mean (fun w => nth d (p_pos (p w)) 0 * nth d (p_pos (q w)) 0) = 0 /\ mean (fun w => nth d (p_pos (p w)) 0 * nth d (p_mom (q w)) 0) = 0 /\
  mean (fun w => nth d (p_mom (p w)) 0 * nth d (p_pos (q w)) 0) = 0 /\ mean (fun w => nth d (p_mom (p w)) 0 * nth d (p_mom (q w)) 0) = 0.

(** for the example: walker i starts with the tosses number 2 i and 2 i + 1 of a coin, the generator uses the tosses from number 2 m on *)
Definition toss_start (ld : ldpar) (c2 sx sp : R) (i : nat) (w : list R) : particle :=
  let pos := [sx * nth (2 * i) w 0; 0] in mkP pos [sp * nth (2 * i + 1) w 0; 0] 1 (pot_energy (ld_pot ld) pos) (pot_force (ld_pot ld) pos) c2.
Definition toss_starts (ld : ldpar) (c2 sx sp : R) (m : nat) (w : list R) : list particle := map (fun i => toss_start ld c2 sx sp i w) (seq 0 m).
Definition toss_state (m : nat) (w : list R) : rng_st coin_rng := skipn (2 * m) w.
