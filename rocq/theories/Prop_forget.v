(** Runs forget their start, property C109 *)
From Coq Require Import Reals.
From Verif Require Import PyBase Model_dyn Spec_ld Spec_well Spec_crowd Spec_forget Proof_well2 Proof_forget.
Open Scope R_scope.

(** Two overdamped simulations with the same random numbers and different starts in a potential with curvature between k and L: the squared
    distance of corresponding walkers shrinks by the factor 1 - 2 k dt + L^2 dt^2 per step. *)
Theorem C109_forget :
  forall rng ld k L ps ps' g crowd crowd', sized rng -> ld_kind ld = Overdamped -> pot_bc (ld_pot ld) = None -> force_size (ld_pot ld) ->
  confining (ld_pot ld) k L -> 0 <= k <= L -> 0 <= ld_dt ld -> length ps = length ps' ->
  (forall p, In p ps \/ In p ps' -> right_size (pot_ndim (ld_pot ld)) p /\ consistent (ld_pot ld) p) ->
  crowd_follows rng ld ps g crowd -> crowd_follows rng ld ps' g crowd' ->
  forall n i, (i < length ps)%nat ->
  distance2 (pot_ndim (ld_pot ld)) (p_pos (walker_of i (crowd n))) (p_pos (walker_of i (crowd' n))) <=
    approach k L (ld_dt ld) ^ n * distance2 (pot_ndim (ld_pot ld)) (p_pos (walker_of i ps)) (p_pos (walker_of i ps')).
Proof. exact crowd_forgets. Qed.
Print Assumptions C109_forget.

(** So with dt < 2 k / L^2 all runs meet: the number of steps depends on the initial distance D and the tolerance only. *)
Theorem C109_meet :
  forall ld k L, ld_kind ld = Overdamped -> pot_bc (ld_pot ld) = None -> force_size (ld_pot ld) ->
  confining (ld_pot ld) k L -> 0 < k <= L -> 0 < ld_dt ld -> L ^ 2 * ld_dt ld < 2 * k ->
  forall D eps, 0 < eps -> exists n0, forall rng ps ps' g crowd crowd', sized rng -> length ps = length ps' ->
  (forall p, In p ps \/ In p ps' -> right_size (pot_ndim (ld_pot ld)) p /\ consistent (ld_pot ld) p) ->
  crowd_follows rng ld ps g crowd -> crowd_follows rng ld ps' g crowd' ->
  forall n i, (n0 <= n)%nat -> (i < length ps)%nat -> distance2 (pot_ndim (ld_pot ld)) (p_pos (walker_of i ps)) (p_pos (walker_of i ps')) <= D ->
  distance2 (pot_ndim (ld_pot ld)) (p_pos (walker_of i (crowd n))) (p_pos (walker_of i (crowd' n))) < eps.
Proof. exact crowd_meets. Qed.
Print Assumptions C109_meet.

(** In one dimension the condition says that the derivative of the force is between - L and - k. *)
Theorem C109_convex :
  forall pot k L f', pot_ndim pot = 1%nat -> 0 <= k <= L ->
  (forall t, derivable_pt_lim (fun t => nth 0 (pot_force pot [t]) 0) t (f' t) /\ - L <= f' t <= - k) -> confining pot k L.
Proof. exact convex_confining. Qed.
Print Assumptions C109_convex.

(** Two walkers at any places in a harmonic well in two dimensions, with dt = 1/10 *)
Example C109_case : forall x y (g : rng_st coin_rng), length x = 2%nat -> length y = 2%nat ->
  let ld := demo_ld Overdamped None in
  sized coin_rng /\ pot_bc (ld_pot ld) = None /\ force_size (ld_pot ld) /\ confining (ld_pot ld) 2 2 /\ 2 ^ 2 * ld_dt ld < 2 * 2 /\
  (forall p, In p (pair_at (ld_pot ld) x y) -> right_size (pot_ndim (ld_pot ld)) p /\ consistent (ld_pot ld) p) /\
  exists crowd, crowd_follows coin_rng ld (pair_at (ld_pot ld) x y) g crowd.
Proof. exact demo_forgets. Qed.
