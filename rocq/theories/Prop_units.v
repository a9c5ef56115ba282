(** Units of measurement, origin and orientation of the axes do not matter, property C98 *)
From Verif Require Import PyBase Model_xr Model_dyn Model_pot Model_bd Model_fes Model_setup Model_main Spec_rng Spec_ld Spec_whole Spec_units
  Proof_units Proof_units2 Proof_units3.
Open Scope R_scope.

(** C98.  [u] says how lengths, energies and times are expressed in the new units, where the origin is and which axes are mirrored.
    One step of the dynamics commutes with the change of units (mirrored axes get mirrored random numbers), ... *)
Theorem C98_langevin :
  forall u n rng ld ld', units_ok u n -> rng_ok rng -> same_dynamics u ld ld' -> pot_ndim (ld_pot ld) = n ->
  forall ps g, Forall (right_size n) ps ->
  ld_run (mirrored (signs u) rng) ld' (map (new_walker u) ps) g =
  on_ok (fun r => (map (new_walker u) (fst r), snd r)) (ld_run rng ld ps g).
Proof. exact langevin_units. Qed.
Print Assumptions C98_langevin.

(** ... so does one round of birth-death moves, with the same events, ... *)
Theorem C98_birth_death :
  forall u n gd par par', units_ok u n -> same_moves u n gd par par' ->
  forall s rng ps (g : rng_st rng) st, Forall (fun p => length (p_pos p) = n) ps ->
  do_birth_death (mirrored s rng) gd par' (@mkBS (mirrored s rng) (map (new_walker u) ps) g st) =
  on_ok (fun r : list (nat * nat) * bdst rng => (fst r, @mkBS (mirrored s rng) (map (new_walker u) (bs_ps (snd r))) (bs_rng (snd r)) (bs_stats (snd r))))
        (do_birth_death rng gd par (@mkBS rng ps g st)).
Proof. exact moves_in_units. Qed.
Print Assumptions C98_birth_death.

(** ... the setup of a walker, ... *)
Theorem C98_new_walker :
  forall u n ld ld', units_ok u n -> same_dynamics u ld ld' -> pot_ndim (ld_pot ld) = n ->
  forall pos mass, length pos = n ->
  new_particle ld' (new_pos u pos) (new_mass u mass) = on_ok (new_walker u) (new_particle ld pos mass).
Proof. exact setup_units. Qed.
Print Assumptions C98_new_walker.

(** ... and the whole evolution: the walkers are the same in the new units after every step, and so are the generators, the counters
    and the reports of the birth-death action. *)
Theorem C98_evolution :
  forall u n, units_ok u n -> forall e, rng_ok (e_rng e) -> forall ld ld', same_dynamics u ld ld' -> pot_ndim (ld_pot ld) = n ->
  forall (d : dyn e) (d' : dyn (mirrored_env (signs u) e)) N D,
  Forall (right_size n) (fst (fst d)) -> fst d' = (map (new_walker u) (fst (fst d)), snd (fst d)) -> same_action u n (e_gd e) (snd d) (snd d') ->
  evolution e ld d N D ->
  exists D' : Z -> dyn (mirrored_env (signs u) e), evolution (mirrored_env (signs u) e) ld' d' N D' /\
    forall k, (0 <= k <= N)%Z -> walkers D' k = map (new_walker u) (walkers D k) /\ snd (fst (D' k)) = snd (fst (D k)) /\ bd_state (D' k) = bd_state (D k).
Proof. exact evolution_units. Qed.
Print Assumptions C98_evolution.

(** Without mirrored axes this holds for the very same random numbers. *)
Theorem C98_same_numbers :
  forall u n e ld ld' (d d' : dyn e) N D, units_ok u n -> Forall (fun a => fst a = 1) (u_axes u) -> rng_ok (e_rng e) -> same_dynamics u ld ld' -> pot_ndim (ld_pot ld) = n ->
  Forall (right_size n) (fst (fst d)) -> fst d' = (map (new_walker u) (fst (fst d)), snd (fst d)) -> same_action u n (e_gd e) (snd d) (snd d') ->
  evolution e ld d N D ->
  exists D' : Z -> dyn e, evolution e ld' d' N D' /\
    forall k, (0 <= k <= N)%Z -> walkers D' k = map (new_walker u) (walkers D k) /\ snd (fst (D' k)) = snd (fst (D k)) /\ bd_state (D' k) = bd_state (D k).
Proof. exact evolution_same. Qed.
Print Assumptions C98_same_numbers.

(** the evolution is the one of the program (C56) *)
Theorem C98_history :
  forall e (w0 : world (e_rng e)) n D, history e w0 n D <-> evolution e (w_ld w0) (dyn_of w0) n D.
Proof. exact history_evolution. Qed.
Print Assumptions C98_history.

(** polynomial potentials in the new units: the coefficient of x^i y^j z^k is divided by the (i+j+k)-th power of the unit of length *)
Theorem C98_polynomial :
  forall u n, units_ok u n -> forall c rs bc pot pot', length (a_shape c) = n -> Forall (fun a => snd a = 0) (u_axes u) -> u_zero u = 0 ->
  length rs = n -> Forall (fun r => fst r <= snd r) rs -> (1 <= n <= 3)%nat -> Forall (fun k => (0 < k)%nat) (a_shape c) ->
  poly_init c (Some rs) bc = Ok pot -> poly_init (new_coeffs u c) (Some (new_ranges u rs)) bc = Ok pot' -> same_potential u pot pot'.
Proof. exact poly_units. Qed.
Print Assumptions C98_polynomial.

(** free energies of the same histogram are in the new unit of energy *)
Theorem C98_free_energies :
  forall data kt en junk, 0 < kt -> 0 < en ->
  on_ok (map (xscale en)) (calculate_fes data kt true junk) = calculate_fes data (en * kt) true junk.
Proof. exact fes_units. Qed.
Print Assumptions C98_free_energies.

(** the double well x^4 - 2 x^2 on [-3, 2] with lengths doubled, energies tripled, times halved, mirrored *)
Example C98_case : exists pot pot', poly_init well (Some [(-3, 2)]) (Some Reflective) = Ok pot /\
  poly_init (mkArr [5%nat] [0; 0; -3/2; 0; 3/16]) (Some [(-4, 6)]) (Some Reflective) = Ok pot' /\ units_ok well_units 1 /\
  same_dynamics well_units (mkLD (BussiParinello 5) pot (1/100) 1) (mkLD (BussiParinello 10) pot' (1/200) 3) /\
  (forall gd, same_moves well_units 1 gd (mkBD 10 (1/10) [1/2] 1 1 false VOrig None None false) (mkBD 10 (1/20) [1] 3 2 false VOrig None None false)) /\
  new_walker well_units (mkP [1] [2] 1 (-1) [0] 1) = mkP [-2] [-3/2] (3/16) (-3) [-0] (3/4).
Proof. exact units_case. Qed.
(** a symmetric well is its own mirror image *)
Example C98_symmetric_case : exists pot, poly_init well (Some [(-3, 3)]) (Some Periodic) = Ok pot /\
  let u := mkUnits 1 1 1 0 [(-1, 0)] in units_ok u 1 /\ same_potential u pot pot.
Proof. exact symmetric_case. Qed.
