(** Properties C23-C28: Langevin dynamics *)
From Coq Require Import Lra Lia.
From Verif Require Import PyBase Model_dyn Model_bd Spec_rng Spec_bd Spec_ld Proof_ld.
Open Scope R_scope.

(** C23: after any history of adding and removing walkers, Langevin steps and birth-death moves the
    stored energies and forces are those at the positions *)
Theorem C23_energies_current :
  forall rng ld ops g ps g', do_ops rng ld ops ([], g) = Ok (ps, g') ->
  Forall (fun p => p_energy p = pot_energy (ld_pot ld) (p_pos p) /\ p_forces p = pot_force (ld_pot ld) (p_pos p)) ps.
Proof. exact history_consistent. Qed.
Print Assumptions C23_energies_current.

Example C23_case : forall k, exists w g, do_ops demo_rng (demo_ld k None)
  [OpAdd [1; 0] 1 (-1) false; OpAdd [2; 1] 3 (-1) false; OpLd; OpAdd [0; 0] 1 0 false; OpBd [(1, 2)%nat]; OpLd; OpRemove 0; OpAdd [5; 5] 1 1 true; OpLd]
  ([], 7%nat) = Ok (w, g) /\ length w = 2%nat.
Proof. exact demo_history. Qed.

(** C24: the reflective boundary condition *)
Theorem C24_reflective :
  forall pot pos mom, pot_bc pot = Some Reflective -> proper_ranges (length pos) (pot_ranges pot) ->
  length mom = length pos ->
  exists pos' mom', apply_boundary_condition pot pos mom = Ok (pos', mom') /\
    length pos' = length pos /\ length mom' = length mom /\
    forall d, (d < length pos)%nat ->
      let lo := fst (nth d (pot_ranges pot) (0, 0)) in let hi := snd (nth d (pot_ranges pot) (0, 0)) in
      let x := nth d pos 0 in let m := nth d mom 0 in let x' := nth d pos' 0 in let m' := nth d mom' 0 in
      lo <= x' <= hi /\
      (lo <= x <= hi -> x' = x /\ m' = m) /\ (x < lo -> x' = lo /\ m' = - m) /\ (hi < x -> x' = hi /\ m' = - m).
Proof. exact apply_reflective. Qed.
Print Assumptions C24_reflective.

Example C24_reflective_case : proper_ranges 2 (pot_ranges (demo_pot (Some Reflective))) /\
  apply_boundary_condition (demo_pot (Some Reflective)) [3; 1] [7; 8] = Ok ([1; 1], [-7; 8]).
Proof. split; [exact (demo_ranges None)|exact demo_reflect]. Qed.

(** ... and all walkers are inside after any number of Langevin steps and birth-death moves,
    wherever they started *)
Theorem C24_always_inside :
  forall rng ld, rng_ok rng -> force_size (ld_pot ld) -> pot_bc (ld_pot ld) = Some Reflective ->
  proper_ranges (pot_ndim (ld_pot ld)) (pot_ranges (ld_pot ld)) ->
  forall ops ps g ps' g', Forall dynamics ops -> Forall (right_size (pot_ndim (ld_pot ld))) ps ->
  do_ops rng ld (OpLd :: ops) (ps, g) = Ok (ps', g') ->
  Forall (fun p => inside (pot_ranges (ld_pot ld)) (p_pos p)) ps'.
Proof. exact dynamics_inside. Qed.
Print Assumptions C24_always_inside.

(** a Langevin step does not fail, whatever the boundary condition *)
Theorem C24_step_succeeds :
  forall rng ld, rng_ok rng -> force_size (ld_pot ld) ->
  (pot_bc (ld_pot ld) = None \/ length (pot_ranges (ld_pot ld)) = pot_ndim (ld_pot ld)) ->
  forall ps g, Forall (right_size (pot_ndim (ld_pot ld))) ps ->
  exists ps' g', ld_run rng ld ps g = Ok (ps', g') /\ Forall (right_size (pot_ndim (ld_pot ld))) ps' /\
    map p_mass ps' = map p_mass ps /\ map p_c2 ps' = map p_c2 ps.
Proof. exact ld_run_total. Qed.
Print Assumptions C24_step_succeeds.

Example C24_case : forall k bc, rng_ok demo_rng /\ force_size (demo_pot bc) /\ proper_ranges 2 (pot_ranges (demo_pot bc)) /\
  exists ps, do_ops demo_rng (demo_ld k bc) [OpAdd [1; 0] 1 (-1) false; OpAdd [2; 5] 3 (-1) false] ([], 7%nat) = Ok (ps, 7%nat) /\
  Forall (right_size (pot_ndim (demo_pot bc))) ps.
Proof. intros k bc. split; [exact demo_rng_ok|]. split; [exact (demo_force_size bc)|]. split; [exact (demo_ranges bc)|exact (demo_walkers_size k bc)]. Qed.

(** C25: the full property "every coordinate ends inside" is false: *)
Theorem C25_periodic_refuted :
  ~ forall pot pos mom, pot_bc pot = Some Periodic -> proper_ranges (length pos) (pot_ranges pot) ->
    length mom = length pos -> forall pos' mom', apply_boundary_condition pot pos mom = Ok (pos', mom') ->
    inside (pot_ranges pot) pos'.
Proof. exact periodic_refuted. Qed.
Print Assumptions C25_periodic_refuted.

(** it holds for coordinates at most one period away from the range *)
Theorem C25_periodic_partial :
  forall pot pos mom, pot_bc pot = Some Periodic -> proper_ranges (length pos) (pot_ranges pot) ->
  length mom = length pos ->
  (forall d, (d < length pos)%nat ->
     let lo := fst (nth d (pot_ranges pot) (0, 0)) in let hi := snd (nth d (pot_ranges pot) (0, 0)) in
     lo - (hi - lo) <= nth d pos 0 <= hi + (hi - lo)) ->
  exists pos', apply_boundary_condition pot pos mom = Ok (pos', mom) /\ length pos' = length pos /\
    forall d, (d < length pos)%nat ->
      let lo := fst (nth d (pot_ranges pot) (0, 0)) in let hi := snd (nth d (pot_ranges pot) (0, 0)) in
      lo <= nth d pos' 0 <= hi /\ exists k : Z, nth d pos' 0 = nth d pos 0 + IZR k * (hi - lo).
Proof. exact apply_periodic_good. Qed.
Print Assumptions C25_periodic_partial.

(** for every position: one shift by the period if outside, momentum unchanged *)
Theorem C25_periodic_exact :
  forall pot pos mom, pot_bc pot = Some Periodic -> proper_ranges (length pos) (pot_ranges pot) ->
  length mom = length pos ->
  exists pos', apply_boundary_condition pot pos mom = Ok (pos', mom) /\ length pos' = length pos /\
    forall d, (d < length pos)%nat ->
      let lo := fst (nth d (pot_ranges pot) (0, 0)) in let hi := snd (nth d (pot_ranges pot) (0, 0)) in
      let x := nth d pos 0 in let x' := nth d pos' 0 in
      (lo <= x <= hi -> x' = x) /\ (x < lo -> x' = x + (hi - lo)) /\ (hi < x -> x' = x - (hi - lo)).
Proof. exact apply_periodic. Qed.
Print Assumptions C25_periodic_exact.

(** so it fails for every coordinate further away than one period *)
Theorem C25_periodic_too_far :
  forall pot pos mom d, pot_bc pot = Some Periodic -> proper_ranges (length pos) (pot_ranges pot) ->
  length mom = length pos -> (d < length pos)%nat ->
  let lo := fst (nth d (pot_ranges pot) (0, 0)) in let hi := snd (nth d (pot_ranges pot) (0, 0)) in
  (nth d pos 0 < lo - (hi - lo) \/ hi + (hi - lo) < nth d pos 0) ->
  exists pos' mom', apply_boundary_condition pot pos mom = Ok (pos', mom') /\ ~ (lo <= nth d pos' 0 <= hi).
Proof. exact apply_periodic_far. Qed.
Print Assumptions C25_periodic_too_far.

(** first coordinate too far, second one period away *)
Example C25_case : proper_ranges 2 (pot_ranges (demo_pot (Some Periodic))) /\
  apply_boundary_condition (demo_pot (Some Periodic)) [7/2; 3] [7; 8] = Ok ([3/2; -1], [7; 8]).
Proof. exact demo_periodic_far. Qed.

(** C26: with friction 0 the random numbers have no effect ... *)
Theorem C26_noise_free :
  forall rng ld n ps g1 g2, rng_ok rng -> ld_kind ld = BussiParinello 0 -> pot_bc (ld_pot ld) = None ->
  force_size (ld_pot ld) -> Forall (frictionless_walker (ld_pot ld)) ps ->
  exists ps' g1' g2', ld_steps rng ld n ps g1 = Ok (ps', g1') /\ ld_steps rng ld n ps g2 = Ok (ps', g2').
Proof. exact noise_free. Qed.
Print Assumptions C26_noise_free.

(** ... and n steps, momentum reversal and n steps go back to the start *)
Theorem C26_reversible :
  forall rng ld n ps g1 g2, rng_ok rng -> ld_kind ld = BussiParinello 0 -> pot_bc (ld_pot ld) = None ->
  force_size (ld_pot ld) -> Forall (frictionless_walker (ld_pot ld)) ps ->
  exists ps' g1' g2', ld_steps rng ld n ps g1 = Ok (ps', g1') /\
    ld_steps rng ld n (map reverse_momentum ps') g2 = Ok (map reverse_momentum ps, g2').
Proof. exact reversible. Qed.
Print Assumptions C26_reversible.

(** walkers added by the code meet the condition [frictionless_walker] *)
Theorem C26_added_walkers :
  forall ld pos mass p, ld_kind ld = BussiParinello 0 -> force_size (ld_pot ld) -> mass <> 0 ->
  new_particle ld pos mass = Ok p -> frictionless_walker (ld_pot ld) p.
Proof. exact added_frictionless. Qed.
Print Assumptions C26_added_walkers.

Example C26_case : exists ps, add_particle (demo_ld (BussiParinello 0) None) [] [1; 2] 3 (-1) false = Ok ps /\
  length ps = 1%nat /\ Forall (frictionless_walker (demo_pot None)) ps.
Proof. exact demo_frictionless. Qed.

(** C27: the argument of the square root in c2 is not negative and the variance m kt is kept *)
Theorem C27_fluctuation_dissipation :
  forall friction dt mass kt, 0 <= friction -> 0 <= dt -> 0 < mass -> 0 < kt ->
  let c1 := ld_c1 friction dt in
  0 < c1 <= 1 /\ 0 <= (1 - c1 * c1) * mass * kt /\
  c1 ^ 2 * (mass * kt) + (ld_c2 c1 mass kt) ^ 2 = mass * kt.
Proof. exact thermostat. Qed.
Print Assumptions C27_fluctuation_dissipation.

(** these are the constants of every added walker *)
Theorem C27_added_walkers :
  forall ld friction pos mass p, ld_kind ld = BussiParinello friction -> new_particle ld pos mass = Ok p ->
  p_pos p = pos /\ p_mass p = mass /\ p_mom p = repeat 0 (length pos) /\
  p_c2 p = ld_c2 (ld_c1 friction (ld_dt ld)) mass (ld_kt ld).
Proof. exact new_particle_c2. Qed.
Print Assumptions C27_added_walkers.

Example C27_case : exists p, new_particle (demo_ld (BussiParinello 10) None) [1; 2] 3 = Ok p /\ p_mass p = 3.
Proof. eexists; split; reflexivity. Qed.

(** C28: walker i is updated with random numbers [noise i], which depend only on the state of the
    generator, and its own data *)
Theorem C28_independent :
  forall rng ld g, rng_ok rng -> exists noise : nat -> vec * vec,
  (forall i, length (fst (noise i)) = pot_ndim (ld_pot ld) /\
     match ld_kind ld with BussiParinello _ => length (snd (noise i)) = pot_ndim (ld_pot ld) | Overdamped => True end) /\
  forall ps ps' g', ld_run rng ld ps g = Ok (ps', g') ->
  length ps' = length ps /\
  forall i p, nth_error ps i = Some p -> exists p', nth_error ps' i = Some p' /\
    match ld_kind ld with
    | BussiParinello friction => bp_update (ld_pot ld) (ld_c1 friction (ld_dt ld)) (ld_dt ld) p (fst (noise i)) (snd (noise i)) = Ok p'
    | Overdamped => od_update (ld_pot ld) (ld_noise_factor (ld_dt ld)) (ld_dt ld) p (fst (noise i)) = Ok p'
    end.
Proof. exact walkers_independent. Qed.
Print Assumptions C28_independent.

(** the equations of the Bussi-Parrinello update ... *)
Theorem C28_bussi_parrinello :
  forall pot c1 dt p n1 n2, pot_bc pot = None -> force_size pot -> right_size (pot_ndim pot) p ->
  length n1 = pot_ndim pot -> length n2 = pot_ndim pot ->
  exists p', bp_update pot c1 dt p n1 n2 = Ok p' /\ right_size (pot_ndim pot) p' /\
    p_mass p' = p_mass p /\ p_c2 p' = p_c2 p /\ consistent pot p' /\
    forall d, (d < pot_ndim pot)%nat ->
      nth d (p_pos p') 0 = bp_position c1 (p_c2 p) dt (p_mass p) (nth d (p_pos p) 0) (nth d (p_mom p) 0) (nth d (p_forces p) 0) (nth d n1 0) /\
      nth d (p_mom p') 0 = bp_momentum c1 (p_c2 p) dt (nth d (p_mom p) 0) (nth d (p_forces p) 0) (nth d (p_forces p') 0) (nth d n1 0) (nth d n2 0).
Proof. exact bp_equations. Qed.
Print Assumptions C28_bussi_parrinello.

(** ... and of the overdamped update *)
Theorem C28_overdamped :
  forall pot dt p n, pot_bc pot = None -> force_size pot -> right_size (pot_ndim pot) p -> length n = pot_ndim pot ->
  exists p', od_update pot (ld_noise_factor dt) dt p n = Ok p' /\ right_size (pot_ndim pot) p' /\
    p_mass p' = p_mass p /\ p_mom p' = p_mom p /\ consistent pot p' /\
    forall d, (d < pot_ndim pot)%nat ->
      nth d (p_pos p') 0 = nth d (p_pos p) 0 + nth d (p_forces p) 0 * dt + sqrt (2 * dt) * nth d n 0.
Proof. exact od_equations. Qed.
Print Assumptions C28_overdamped.

Example C28_case : forall k, exists ps g, do_ops demo_rng (demo_ld k None) [OpAdd [1; 0] 1 (-1) false; OpAdd [2; 5] 3 (-1) false; OpLd; OpLd] ([], 7%nat) = Ok (ps, g) /\
  length ps = 2%nat /\ Forall (right_size 2) ps.
Proof. destruct k; eexists _, _; (split; [reflexivity|]); (split; [reflexivity|]); repeat constructor. Qed.
