(** Reference surfaces and the density grid, properties C69 and C70 *)
From Coq Require Import Lra Lia.
From Verif Require Import PyBase Model_dyn Model_grid Model_potgrid Model_bd Model_debug Spec_grid Spec_gridops Spec_bd Spec_debug Proof_debug.
Open Scope R_scope.

(** the reference is the energy shifted such that its minimum over the given positions is zero *)
Theorem C69_minimum :
  forall energy pos, pos <> [] ->
  exists r m, calculate_reference energy pos true = Ok r /\ r = map (fun p => energy p - m) pos /\ Forall (fun x => 0 <= x) r /\ In 0 r.
Proof. exact reference_zero. Qed.
Print Assumptions C69_minimum.
Theorem C69_empty : forall energy, calculate_reference energy [] true = Err ValueError /\ calculate_reference energy [] false = Ok [].
Proof. exact reference_empty. Qed.
Print Assumptions C69_empty.

(** On the points of a grid it is, up to a constant, - kt times the logarithm of the probability density (in any dimension). *)
Theorem C69_boltzmann :
  forall pot kt ranges ns,
  length ranges = pot_ndim pot -> length ns = pot_ndim pot -> increasing ranges -> usable_points ns -> 0 < kt ->
  exists g r c, calculate_probability_density pot kt ranges ns = Ok g /\ calculate_reference (pot_energy pot) (points g) true = Ok r /\
    length r = length (a_flat (g_data g)) /\
    forall i, (i < length r)%nat -> nth i r 0 = c - kt * ln (nth i (a_flat (g_data g)) 0).
Proof. exact reference_boltzmann. Qed.
Print Assumptions C69_boltzmann.

Example C69_case : let pot := mkPot 2 [] (fun p => nth 0 p 0 ^ 4 + nth 1 p 0) (fun _ => []) None in
  length [(-2, 2); (-1, 3)] = pot_ndim pot /\ length [101; 51]%nat = pot_ndim pot /\ increasing [(-2, 2); (-1, 3)] /\ usable_points [101; 51]%nat.
Proof. split; [reflexivity|]. split; [reflexivity|]. split; repeat constructor; cbn; try lra; lia. Qed.

(** Full statement: in any dimension the row of a grid point has the point, the density there and the rate a walker there would have.
    Proved in one dimension with at least two walkers; false otherwise (see below). *)
Theorem C70_rates_partial :
  forall par ps grid energy, walkers_ok 1 (bd_bw par) (map p_pos ps) -> (2 <= length ps)%nat ->
  Forall (fun g => length g = 1%nat) grid -> (length grid <= length energy)%nat ->
  exists rows, walker_density_grid par ps grid energy = Ok rows /\ length rows = length grid /\
  forall i, (i < length grid)%nat ->
    let g := nth i grid [] in
    exists rho beta, nth i rows [] = (g ++ [rho; beta])%list /\
      rho = average (map (gauss_kernel (bd_bw par) g) (g :: map p_pos ps)) /\
      forall gd p, p_pos p = g -> p_energy p = nth i energy 0 -> exists rest, calc_betas gd (original par) (p :: ps) = Ok (beta :: rest).
Proof. exact density_grid_rates. Qed.
Print Assumptions C70_rates_partial.

Example C70_case : let ps := [mkP [0] [0] 1 3 [] 0; mkP [1] [0] 1 1 [] 0] in
  walkers_ok 1 (bd_bw (mkBD 10 (1/10) [1/2] 2 1 false VOrig None None false)) (map p_pos ps) /\ (2 <= length ps)%nat /\ Forall (fun g : vec => length g = 1%nat) [[0]; [1/2]].
Proof. split; [split; [reflexivity|split; repeat constructor; cbn; lra]|]. split; [cbn; lia|repeat constructor]. Qed.

(** in two or more dimensions it always fails *)
Theorem C70_refuted :
  forall n_dim par ps g grid e energy, walkers_ok n_dim (bd_bw par) (map p_pos ps) -> (2 <= n_dim)%nat -> (2 <= length ps)%nat -> length g = n_dim ->
  walker_density_grid par ps (g :: grid) (e :: energy) = Err ValueError.
Proof. exact density_grid_fails. Qed.
Print Assumptions C70_refuted.

Example C70_case2 : let ps := [mkP [0; 1] [0; 0] 1 3 [] 0; mkP [1; 1] [0; 0] 1 1 [] 0] in
  walkers_ok 2 (bd_bw (mkBD 10 (1/10) [1/2; 1] 2 1 false VOrig None None false)) (map p_pos ps) /\ (2 <= length ps)%nat /\ length [0; 0] = 2%nat.
Proof. split; [split; [reflexivity|split; repeat constructor; cbn; lra]|]. split; [cbn; lia|reflexivity]. Qed.

(** and with a single walker *)
Theorem C70_single_refuted :
  forall par p g grid e energy, walker_density_grid par [p] (g :: grid) (e :: energy) = Err IndexError.
Proof. exact density_grid_single. Qed.
Print Assumptions C70_single_refuted.
