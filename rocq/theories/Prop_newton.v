(** The motion without friction, property C106 *)
From Coq Require Import Lra Lia.
From Verif Require Import PyBase Model_dyn Model_pot Spec_rng Spec_ld Spec_well Spec_newton Proof_well2 Proof_newton Proof_newton2.
Open Scope R_scope.

(** Langevin dynamics without friction and without walls solves Newton's equation of motion with second order:
    up to the time T, position and velocity of the walker differ from the exact motion by at most a constant times dt^2. *)
Theorem C106_second_order :
  forall rng ld mass T delta L J K q v p g walker,
  sized rng -> ld_kind ld = BussiParinello 0 -> pot_bc (ld_pot ld) = None -> force_size (ld_pot ld) ->
  0 < mass -> 0 < ld_dt ld <= 1 -> 0 <= L ->
  newton (ld_pot ld) mass T q v -> smooth (ld_pot ld) mass T q J K -> tame (ld_pot ld) T q delta L ->
  set_up ld 0 mass p -> follows rng ld p g walker -> starts (pot_ndim (ld_pot ld)) mass q v p ->
  forall n, INR n * ld_dt ld <= T -> error_factor mass T L J K * ld_dt ld ^ 2 <= delta ->
  agrees (pot_ndim (ld_pot ld)) mass (error_factor mass T L J K * ld_dt ld ^ 2) q v (INR n * ld_dt ld) (walker n).
Proof. exact error_bound_run. Qed.
Print Assumptions C106_second_order.

(** The same holds for every walker of a simulation with any number of walkers. *)
Theorem C106_walkers :
  forall rng ld ps g n,
  rng_ok rng -> ld_kind ld = BussiParinello 0 -> pot_bc (ld_pot ld) = None -> force_size (ld_pot ld) -> 0 < ld_dt ld <= 1 ->
  (forall p, In p ps -> exists m, 0 < m /\ set_up ld 0 m p) ->
  exists ps' g', ld_steps rng ld n ps g = Ok (ps', g') /\ length ps' = length ps /\
  forall i p p' T delta L J K q v, nth_error ps i = Some p -> nth_error ps' i = Some p' -> 0 <= L ->
  newton (ld_pot ld) (p_mass p) T q v -> smooth (ld_pot ld) (p_mass p) T q J K -> tame (ld_pot ld) T q delta L ->
  starts (pot_ndim (ld_pot ld)) (p_mass p) q v p ->
  INR n * ld_dt ld <= T -> error_factor (p_mass p) T L J K * ld_dt ld ^ 2 <= delta ->
  agrees (pot_ndim (ld_pot ld)) (p_mass p) (error_factor (p_mass p) T L J K * ld_dt ld ^ 2) q v (INR n * ld_dt ld) p'.
Proof. exact walkers_run. Qed.
Print Assumptions C106_walkers.

(** With a sufficiently small time step the whole simulation up to the time T is as close to the exact motion as one likes. *)
Theorem C106_limit :
  forall pot mass T delta L J K q v eps,
  pot_bc pot = None -> force_size pot -> 0 < mass -> 0 <= L -> 0 < delta ->
  newton pot mass T q v -> smooth pot mass T q J K -> tame pot T q delta L -> 0 < eps ->
  close_runs pot mass T eps q v.
Proof. exact newton_limit. Qed.
Print Assumptions C106_limit.

(** This needs no condition on the force for the potentials of the code: polynomials in one to three dimensions *)
Theorem C106_polynomial :
  forall c ranges pot mass T q v eps, poly_init c ranges None = Ok pot -> 0 < mass -> newton pot mass T q v -> 0 < eps ->
  close_runs pot mass T eps q v.
Proof. exact poly_close. Qed.
Print Assumptions C106_polynomial.

(** and the Mueller-Brown potential, with any scaling *)
Theorem C106_mueller_brown :
  forall A mass T q v eps, 0 < mass -> newton (mb_potential A None) mass T q v -> 0 < eps ->
  close_runs (mb_potential A None) mass T eps q v.
Proof. exact mb_close. Qed.
Print Assumptions C106_mueller_brown.

(** A walker on a circle around the minimum of a harmonic well in two dimensions *)
Example C106_case : forall T dt kt (g : rng_st coin_rng),
  let ld := mkLD (BussiParinello 0) round_well dt kt in
  sized coin_rng /\ force_size round_well /\ pot_bc round_well = None /\
  newton round_well 1 T circle circle_v /\ smooth round_well 1 T circle 1 1 /\ tame round_well T circle 10 1 /\
  set_up ld 0 1 circle_start /\ starts 2 1 circle circle_v circle_start /\ exists walker, follows coin_rng ld circle_start g walker.
Proof.
  intros T dt kt g. cbv zeta. assert (FS : force_size round_well) by (intros x Hx; cbn; rewrite map_length; exact Hx).
  destruct (round_motion T 10) as (A & B & C). destruct (circle_set_up dt kt) as (D & E).
  repeat (split; [first [exact coin_sized|exact FS|reflexivity|exact A|exact B|exact C|exact D|exact E]|]).
  apply (walkers_exist coin_rng (mkLD (BussiParinello 0) round_well dt kt) 0 1); [exact coin_sized|reflexivity|reflexivity|exact FS|exact D].
Qed.

(** The oscillation cos t in the potential x^2 / 2 *)
Example C106_case_polynomial : forall T, exists pot, poly_init (mkArr [3%nat] [0; 0; 1 / 2]) None None = Ok pot /\ newton pot 1 T circle circle_v.
Proof. exact parabola_motion. Qed.
