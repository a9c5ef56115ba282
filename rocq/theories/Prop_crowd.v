(** Simulations with many walkers, property C107 *)
From Coq Require Import Lra Lia.
From Verif Require Import PyBase Model_dyn Model_pot Spec_grid Spec_ld Spec_well Spec_diffusion Spec_crowd Proof_ld Proof_well2 Proof_crowd Proof_crowd2 Proof_crowd3.
Open Scope R_scope.

(** In a simulation with many walkers every walker moves exactly as if it were simulated alone with the random numbers dealt to it:
    with both kinds of dynamics and all boundary conditions. No number is dealt to two walkers or twice to the same walker (next theorem). *)
Theorem C107_alone :
  forall rng ld n ps g ps' g', sized rng -> ld_steps rng ld n ps g = Ok (ps', g') ->
  length ps' = length ps /\ forall i p p', nth_error ps i = Some p -> nth_error ps' i = Some p' ->
    exists s, ld_steps prepared ld n [p] (dealt rng ld (length ps) i g, 0%nat) = Ok ([p'], s).
Proof. exact alone. Qed.
Print Assumptions C107_alone.

Theorem C107_numbers :
  forall c m i j a b, (0 < c)%nat -> (i < m)%nat -> (j < m)%nat -> place_in_sequence c m i a = place_in_sequence c m j b -> i = j /\ a = b.
Proof. exact place_unique. Qed.
Print Assumptions C107_numbers.

(** So the equilibrium of C101 holds for every walker of the population, *)
Theorem C107_equilibrium :
  forall W (mean : (W -> R) -> R) rng ld friction mass d m ps g crowd,
  is_mean mean -> sized rng -> ld_kind ld = BussiParinello friction -> (forall w, length (ps w) = m) ->
  (forall w p, In p (ps w) -> set_up ld friction mass p) -> (forall w, crowd_follows rng ld (ps w) (g w) (crowd w)) ->
  forall k i n, well (ld_pot ld) d k -> 0 <= friction -> 0 < k -> 0 < mass -> 0 < ld_kt ld -> 0 < ld_dt ld -> k * ld_dt ld ^ 2 < 4 * mass -> (i < m)%nat ->
  white mean (2 * m * n) (fun k w => nth d (draw rng (pot_ndim (ld_pot ld)) k (g w)) 0) (fun w => nth d (p_pos (walker_of i (ps w))) 0) (fun w => nth d (p_mom (walker_of i (ps w))) 0) ->
  moments mean d (fun w => walker_of i (ps w)) (mean_square_position k mass (ld_kt ld) (ld_dt ld)) 0 (mean_square_momentum mass (ld_kt ld)) ->
  moments mean d (fun w => walker_of i (crowd w n)) (mean_square_position k mass (ld_kt ld) (ld_dt ld)) 0 (mean_square_momentum mass (ld_kt ld)).
Proof. exact @crowd_equilibrium. Qed.
Print Assumptions C107_equilibrium.

(** is reached by every walker from every start, after a number of steps that does not depend on the number of walkers, *)
Theorem C107_reached :
  forall ld friction mass k d, ld_kind ld = BussiParinello friction -> well (ld_pot ld) d k ->
  0 < friction -> 0 < k -> 0 < mass -> 0 < ld_kt ld -> 0 < ld_dt ld -> k * ld_dt ld ^ 2 < 4 * mass ->
  forall X0 Y0 Z0 eps, 0 < eps -> exists n0, forall W (mean : (W -> R) -> R) rng m ps g crowd,
  is_mean mean -> sized rng -> (forall w, length (ps w) = m) -> (forall w p, In p (ps w) -> set_up ld friction mass p) ->
  (forall w, crowd_follows rng ld (ps w) (g w) (crowd w)) ->
  forall i n, (i < m)%nat -> (n0 <= n)%nat ->
  white mean (2 * m * n) (fun k w => nth d (draw rng (pot_ndim (ld_pot ld)) k (g w)) 0) (fun w => nth d (p_pos (walker_of i (ps w))) 0) (fun w => nth d (p_mom (walker_of i (ps w))) 0) ->
  moments mean d (fun w => walker_of i (ps w)) X0 Y0 Z0 ->
  exists X Y Z, moments mean d (fun w => walker_of i (crowd w n)) X Y Z /\
    Rabs (X - mean_square_position k mass (ld_kt ld) (ld_dt ld)) < eps /\ Rabs Y < eps /\ Rabs (Z - mean_square_momentum mass (ld_kt ld)) < eps.
Proof. exact crowd_reached. Qed.
Print Assumptions C107_reached.

(** and gives averages over the walkers whose expectation values are the canonical ones: the kinetic energy is kt / 2 per axis. *)
Theorem C107_averages :
  forall W (mean : (W -> R) -> R) rng ld friction mass k d m ps g crowd n,
  is_mean mean -> sized rng -> ld_kind ld = BussiParinello friction -> (forall w, length (ps w) = m) ->
  (forall w p, In p (ps w) -> set_up ld friction mass p) -> (forall w, crowd_follows rng ld (ps w) (g w) (crowd w)) ->
  well (ld_pot ld) d k -> 0 <= friction -> 0 < k -> 0 < mass -> 0 < ld_kt ld -> 0 < ld_dt ld -> k * ld_dt ld ^ 2 < 4 * mass -> (0 < m)%nat ->
  (forall i, (i < m)%nat ->
    white mean (2 * m * n) (fun k w => nth d (draw rng (pot_ndim (ld_pot ld)) k (g w)) 0) (fun w => nth d (p_pos (walker_of i (ps w))) 0) (fun w => nth d (p_mom (walker_of i (ps w))) 0) /\
    moments mean d (fun w => walker_of i (ps w)) (mean_square_position k mass (ld_kt ld) (ld_dt ld)) 0 (mean_square_momentum mass (ld_kt ld))) ->
  mean (fun w => over_walkers (fun p => nth d (p_pos p) 0 * nth d (p_pos p) 0) (crowd w n)) = mean_square_position k mass (ld_kt ld) (ld_dt ld) /\
  mean (fun w => over_walkers (fun p => nth d (p_mom p) 0 * nth d (p_mom p) 0 / (2 * mass)) (crowd w n)) = ld_kt ld / 2.
Proof. exact crowd_averages. Qed.
Print Assumptions C107_averages.

(** Walkers whose starts are not correlated never become correlated. *)
Theorem C107_uncorrelated :
  forall W (mean : (W -> R) -> R) rng ld friction mass k d m M ps g crowd,
  is_mean mean -> sized rng -> ld_kind ld = BussiParinello friction -> (forall w, length (ps w) = m) ->
  (forall w p, In p (ps w) -> set_up ld friction mass p) -> (forall w, crowd_follows rng ld (ps w) (g w) (crowd w)) ->
  well (ld_pot ld) d k -> 0 < mass ->
  (forall i, (i < m)%nat ->
    white mean M (fun k w => nth d (draw rng (pot_ndim (ld_pot ld)) k (g w)) 0) (fun w => nth d (p_pos (walker_of i (ps w))) 0) (fun w => nth d (p_mom (walker_of i (ps w))) 0)) ->
  (forall i j, (i < m)%nat -> (j < m)%nat -> i <> j -> uncorrelated mean d (fun w => walker_of i (ps w)) (fun w => walker_of j (ps w))) ->
  forall i j n, (2 * m * n <= M)%nat -> (i < m)%nat -> (j < m)%nat -> i <> j ->
  uncorrelated mean d (fun w => walker_of i (crowd w n)) (fun w => walker_of j (crowd w n)).
Proof. exact @stay_uncorrelated. Qed.
Print Assumptions C107_uncorrelated.

(** So the average position of m walkers in equilibrium fluctuates with 1 / m of the variance of one walker: more walkers give better averages. *)
Theorem C107_center :
  forall W (mean : (W -> R) -> R) rng ld friction mass k d m ps g crowd n,
  is_mean mean -> sized rng -> ld_kind ld = BussiParinello friction -> (forall w, length (ps w) = m) ->
  (forall w p, In p (ps w) -> set_up ld friction mass p) -> (forall w, crowd_follows rng ld (ps w) (g w) (crowd w)) ->
  well (ld_pot ld) d k -> 0 <= friction -> 0 < k -> 0 < mass -> 0 < ld_kt ld -> 0 < ld_dt ld -> k * ld_dt ld ^ 2 < 4 * mass -> (0 < m)%nat ->
  (forall i, (i < m)%nat ->
    white mean (2 * m * n) (fun k w => nth d (draw rng (pot_ndim (ld_pot ld)) k (g w)) 0) (fun w => nth d (p_pos (walker_of i (ps w))) 0) (fun w => nth d (p_mom (walker_of i (ps w))) 0) /\
    moments mean d (fun w => walker_of i (ps w)) (mean_square_position k mass (ld_kt ld) (ld_dt ld)) 0 (mean_square_momentum mass (ld_kt ld))) ->
  (forall i j, (i < m)%nat -> (j < m)%nat -> i <> j -> uncorrelated mean d (fun w => walker_of i (ps w)) (fun w => walker_of j (ps w))) ->
  mean (fun w => over_walkers (fun p => nth d (p_pos p) 0) (crowd w n) * over_walkers (fun p => nth d (p_pos p) 0) (crowd w n)) = mean_square_position k mass (ld_kt ld) (ld_dt ld) / INR m.
Proof. exact crowd_center. Qed.
Print Assumptions C107_center.

(** Without force every walker of the population diffuses with the coefficient of C104. *)
Theorem C107_diffusion :
  forall W (mean : (W -> R) -> R) rng ld friction mass d m ps g crowd,
  is_mean mean -> sized rng -> ld_kind ld = BussiParinello friction -> (forall w, length (ps w) = m) ->
  (forall w p, In p (ps w) -> set_up ld friction mass p) -> (forall w, crowd_follows rng ld (ps w) (g w) (crowd w)) ->
  forall Z0 i n, constant_force (ld_pot ld) d 0 -> 0 < friction -> 0 < mass -> 0 < ld_kt ld -> 0 < ld_dt ld -> (i < m)%nat ->
  white mean (2 * m * n) (fun k w => nth d (draw rng (pot_ndim (ld_pot ld)) k (g w)) 0) (fun w => nth d (p_pos (walker_of i (ps w))) 0) (fun w => nth d (p_mom (walker_of i (ps w))) 0) ->
  mean (fun w => nth d (p_mom (walker_of i (ps w))) 0 * nth d (p_mom (walker_of i (ps w))) 0) = Z0 ->
  Rabs (mean (fun w => displacement d (fun n => walker_of i (crowd w n)) n * displacement d (fun n => walker_of i (crowd w n)) n)
        - 2 * diffusion mass (ld_kt ld) friction (ld_dt ld) * (INR n * ld_dt ld))
    <= (2 * (mass * ld_kt ld) + Rabs (Z0 - mass * ld_kt ld)) / (mass * friction) ^ 2.
Proof. exact @crowd_diffusion. Qed.
Print Assumptions C107_diffusion.

(** The same for the overdamped dynamics: mean square position in a well, drift and diffusion in a constant force. *)
Theorem C107_overdamped :
  forall W (mean : (W -> R) -> R) rng ld d m ps g crowd,
  is_mean mean -> sized rng -> ld_kind ld = Overdamped -> (forall w, length (ps w) = m) ->
  (forall w p, In p (ps w) -> right_size (pot_ndim (ld_pot ld)) p /\ consistent (ld_pot ld) p) -> (forall w, crowd_follows rng ld (ps w) (g w) (crowd w)) ->
  forall k X0 i n, well (ld_pot ld) d k -> 0 < k -> 0 < ld_dt ld -> k * ld_dt ld < 2 -> (i < m)%nat ->
  white mean (m * n) (fun k w => nth d (draw rng (pot_ndim (ld_pot ld)) k (g w)) 0) (fun w => nth d (p_pos (walker_of i (ps w))) 0) (fun w => nth d (p_mom (walker_of i (ps w))) 0) ->
  mean (fun w => nth d (p_pos (walker_of i (ps w))) 0 * nth d (p_pos (walker_of i (ps w))) 0) = X0 ->
  mean (fun w => nth d (p_pos (walker_of i (crowd w n))) 0 * nth d (p_pos (walker_of i (crowd w n))) 0) =
    mean_square_overdamped k (ld_dt ld) + (1 - k * ld_dt ld) ^ (2 * n) * (X0 - mean_square_overdamped k (ld_dt ld)).
Proof. exact @crowd_od_square. Qed.
Print Assumptions C107_overdamped.

Theorem C107_overdamped_drift :
  forall W (mean : (W -> R) -> R) rng ld d m ps g crowd,
  is_mean mean -> sized rng -> ld_kind ld = Overdamped -> (forall w, length (ps w) = m) ->
  (forall w p, In p (ps w) -> right_size (pot_ndim (ld_pot ld)) p /\ consistent (ld_pot ld) p) -> (forall w, crowd_follows rng ld (ps w) (g w) (crowd w)) ->
  forall F i n, constant_force (ld_pot ld) d F -> 0 < ld_dt ld -> (i < m)%nat ->
  centered mean (m * n) (fun k w => nth d (draw rng (pot_ndim (ld_pot ld)) k (g w)) 0) ->
  mean (fun w => displacement d (fun n => walker_of i (crowd w n)) n) = F * (INR n * ld_dt ld).
Proof. exact @crowd_od_drift. Qed.
Print Assumptions C107_overdamped_drift.

Theorem C107_overdamped_diffusion :
  forall W (mean : (W -> R) -> R) rng ld d m ps g crowd,
  is_mean mean -> sized rng -> ld_kind ld = Overdamped -> (forall w, length (ps w) = m) ->
  (forall w p, In p (ps w) -> right_size (pot_ndim (ld_pot ld)) p /\ consistent (ld_pot ld) p) -> (forall w, crowd_follows rng ld (ps w) (g w) (crowd w)) ->
  forall F i n, constant_force (ld_pot ld) d F -> 0 < ld_dt ld -> (i < m)%nat ->
  white mean (m * n) (fun k w => nth d (draw rng (pot_ndim (ld_pot ld)) k (g w)) 0) (fun w => nth d (p_pos (walker_of i (ps w))) 0) (fun w => nth d (p_mom (walker_of i (ps w))) 0) ->
  mean (fun w => (displacement d (fun n => walker_of i (crowd w n)) n - F * (INR n * ld_dt ld)) * (displacement d (fun n => walker_of i (crowd w n)) n - F * (INR n * ld_dt ld))) = 2 * (INR n * ld_dt ld).
Proof. exact @crowd_od_diffusion. Qed.
Print Assumptions C107_overdamped_diffusion.

(** No step of these simulations fails. *)
Theorem C107_runs :
  forall rng ld friction mass ps g, sized rng -> ld_kind ld = BussiParinello friction -> pot_bc (ld_pot ld) = None -> force_size (ld_pot ld) ->
  (forall p, In p ps -> set_up ld friction mass p) -> exists crowd, crowd_follows rng ld ps g crowd.
Proof. exact crowd_runs. Qed.
Print Assumptions C107_runs.

Theorem C107_runs_overdamped :
  forall rng ld ps g, sized rng -> ld_kind ld = Overdamped -> pot_bc (ld_pot ld) = None -> force_size (ld_pot ld) ->
  (forall p, In p ps -> right_size (pot_ndim (ld_pot ld)) p /\ consistent (ld_pot ld) p) -> exists crowd, crowd_follows rng ld ps g crowd.
Proof. exact crowd_od_runs. Qed.
Print Assumptions C107_runs_overdamped.

(** Tosses of a coin; m walkers with independent starts, n steps; k = 2, dt = 1/10, kt = 1, mass 1, friction 1 *)
Example C107_case : forall m n,
  let ld := demo_ld (BussiParinello 1) None in
  let ps := toss_starts ld (ld_c2 (ld_c1 1 (1/10)) 1 1) (sqrt (mean_square_position 2 1 1 (1/10))) (sqrt (mean_square_momentum 1 1)) m in
  let mean := coins (2 * m + 2 * m * n) in
  is_mean mean /\ sized coin_rng /\ well (ld_pot ld) 0 2 /\ (forall w, length (ps w) = m) /\ (forall w p, In p (ps w) -> set_up ld 1 1 p) /\
  (forall w, exists crowd, crowd_follows coin_rng ld (ps w) (toss_state m w) crowd) /\
  (forall i, (i < m)%nat ->
    white mean (2 * m * n) (fun k w => nth 0 (draw coin_rng 2 k (toss_state m w)) 0) (fun w => nth 0 (p_pos (walker_of i (ps w))) 0) (fun w => nth 0 (p_mom (walker_of i (ps w))) 0) /\
    moments mean 0 (fun w => walker_of i (ps w)) (mean_square_position 2 1 1 (1/10)) 0 (mean_square_momentum 1 1)) /\
  forall i j, (i < m)%nat -> (j < m)%nat -> i <> j -> uncorrelated mean 0 (fun w => walker_of i (ps w)) (fun w => walker_of j (ps w)).
Proof. exact toss_crowd. Qed.

(** The same for the overdamped dynamics *)
Example C107_case_overdamped : forall m n,
  let ld := demo_ld Overdamped None in
  let ps := toss_starts ld 0 1 0 m in
  let mean := coins (2 * m + m * n) in
  is_mean mean /\ sized coin_rng /\ well (ld_pot ld) 0 2 /\ (forall w, length (ps w) = m) /\ (forall w p, In p (ps w) -> right_size (pot_ndim (ld_pot ld)) p /\ consistent (ld_pot ld) p) /\
  (forall w, exists crowd, crowd_follows coin_rng ld (ps w) (toss_state m w) crowd) /\
  forall i, (i < m)%nat ->
    white mean (m * n) (fun k w => nth 0 (draw coin_rng 2 k (toss_state m w)) 0) (fun w => nth 0 (p_pos (walker_of i (ps w))) 0) (fun w => nth 0 (p_mom (walker_of i (ps w))) 0) /\
    mean (fun w => nth 0 (p_pos (walker_of i (ps w))) 0 * nth 0 (p_pos (walker_of i (ps w))) 0) = 1.
Proof. exact toss_crowd_od. Qed.
