(** Property C63: energy conservation without friction *)
From Coq Require Import Lra Lia.
From Verif Require Import PyBase Model_dyn Model_bd Spec_rng Spec_ld Spec_energy Proof_ld Proof_energy.
Open Scope R_scope.

(** In a harmonic potential with spring constants k_d the energy (above the minimum e0) of every
    walker stays, for all times, within a factor 1 - al of its initial energy, where al bounds
    k_d dt^2 / (4 mass): there is no drift however long the run is. *)
Theorem C63_no_drift :
  forall rng ld n ps g e0 k c al, rng_ok rng -> ld_kind ld = BussiParinello 0 -> pot_bc (ld_pot ld) = None ->
  harmonic (ld_pot ld) e0 k c -> 0 <= al < 1 ->
  Forall (fun p => frictionless_walker (ld_pot ld) p /\ 0 < p_mass p /\
    forall d, (d < pot_ndim (ld_pot ld))%nat -> 0 <= k d /\ k d * (ld_dt ld) ^ 2 <= al * (4 * p_mass p)) ps ->
  exists ps' g', ld_steps rng ld n ps g = Ok (ps', g') /\ length ps' = length ps /\
  forall i p p', nth_error ps i = Some p -> nth_error ps' i = Some p' ->
    e0 + (1 - al) * (walker_energy (ld_pot ld) p - e0) <= walker_energy (ld_pot ld) p' /\
    e0 + (1 - al) * (walker_energy (ld_pot ld) p' - e0) <= walker_energy (ld_pot ld) p.
Proof. exact no_drift. Qed.
Print Assumptions C63_no_drift.

(** a walker of mass 3 in two dimensions, al = 1/600 *)
Example C63_case : harmonic (demo_pot None) 0 (fun _ => 2) (fun _ => 0) /\
  exists ps, add_particle (demo_ld (BussiParinello 0) None) [] [1; 2] 3 (-1) false = Ok ps /\ length ps = 1%nat /\
  Forall (fun p => frictionless_walker (demo_pot None) p /\ 0 < p_mass p /\
    (forall d, (d < 2)%nat -> 0 <= 2 /\ 2 * (1/10) ^ 2 <= 1/600 * (4 * p_mass p)) /\ 0 < walker_energy (demo_pot None) p) ps.
Proof. exact (conj demo_harmonic demo_no_drift). Qed.
