(** Equilibrium in a harmonic well, property C101 *)
From Coq Require Import Lra Lia.
From Verif Require Import PyBase Model_dyn Model_pot Spec_ld Spec_well Proof_well Proof_well2.
Open Scope R_scope.

(** Langevin dynamics along an axis with force - k x. If the walkers start with
    < x² > = kt / k / (1 - k dt² / 4 m), < x p > = 0 and < p² > = m kt, these averages stay
    the same after every step, for every friction coefficient. *)
Theorem C101_equilibrium :
  forall W (mean : (W -> R) -> R) rng ld friction mass k d N (p0 : W -> particle) g walker,
  is_mean mean -> sized rng -> ld_kind ld = BussiParinello friction -> well (ld_pot ld) d k ->
  0 <= friction -> 0 < k -> 0 < mass -> 0 < ld_kt ld -> 0 < ld_dt ld -> k * ld_dt ld ^ 2 < 4 * mass ->
  (forall w, set_up ld friction mass (p0 w)) -> (forall w, follows rng ld (p0 w) (g w) (walker w)) ->
  white mean N (fun i w => nth d (draw rng (pot_ndim (ld_pot ld)) i (g w)) 0) (fun w => nth d (p_pos (p0 w)) 0) (fun w => nth d (p_mom (p0 w)) 0) ->
  forall n, (2 * n <= N)%nat ->
  moments mean d p0 (mean_square_position k mass (ld_kt ld) (ld_dt ld)) 0 (mean_square_momentum mass (ld_kt ld)) ->
  moments mean d (fun w => walker w n) (mean_square_position k mass (ld_kt ld) (ld_dt ld)) 0 (mean_square_momentum mass (ld_kt ld)).
Proof. exact @equilibrium_kept. Qed.
Print Assumptions C101_equilibrium.

(** With friction there is no other equilibrium: averages that one step leaves as they are have these values. *)
Theorem C101_only :
  forall W (mean : (W -> R) -> R) rng ld friction mass k d N (p0 : W -> particle) g walker,
  is_mean mean -> sized rng -> ld_kind ld = BussiParinello friction -> well (ld_pot ld) d k ->
  0 <= friction -> 0 < k -> 0 < mass -> 0 < ld_kt ld -> 0 < ld_dt ld -> k * ld_dt ld ^ 2 < 4 * mass ->
  (forall w, set_up ld friction mass (p0 w)) -> (forall w, follows rng ld (p0 w) (g w) (walker w)) ->
  white mean N (fun i w => nth d (draw rng (pot_ndim (ld_pot ld)) i (g w)) 0) (fun w => nth d (p_pos (p0 w)) 0) (fun w => nth d (p_mom (p0 w)) 0) ->
  forall n X Y Z, 0 < friction -> (2 * n + 2 <= N)%nat ->
  moments mean d (fun w => walker w n) X Y Z -> moments mean d (fun w => walker w (S n)) X Y Z ->
  X = mean_square_position k mass (ld_kt ld) (ld_dt ld) /\ Y = 0 /\ Z = mean_square_momentum mass (ld_kt ld).
Proof. exact @equilibrium_only. Qed.
Print Assumptions C101_only.

(** and it is reached from every start: after enough steps the averages are as close to these values
    as one likes. The number of steps depends on the parameters and the averages at the start only. *)
Theorem C101_reached :
  forall ld friction mass k d, ld_kind ld = BussiParinello friction -> well (ld_pot ld) d k ->
  0 < friction -> 0 < k -> 0 < mass -> 0 < ld_kt ld -> 0 < ld_dt ld -> k * ld_dt ld ^ 2 < 4 * mass ->
  forall X0 Y0 Z0 eps, 0 < eps -> exists n0, forall W (mean : (W -> R) -> R) rng N p0 g walker,
  is_mean mean -> sized rng -> (forall w, set_up ld friction mass (p0 w)) -> (forall w, follows rng ld (p0 w) (g w) (walker w)) ->
  white mean N (fun i w => nth d (draw rng (pot_ndim (ld_pot ld)) i (g w)) 0) (fun w => nth d (p_pos (p0 w)) 0) (fun w => nth d (p_mom (p0 w)) 0) ->
  moments mean d p0 X0 Y0 Z0 ->
  forall n, (n0 <= n)%nat -> (2 * n <= N)%nat -> exists X Y Z, moments mean d (fun w => walker w n) X Y Z /\
    Rabs (X - mean_square_position k mass (ld_kt ld) (ld_dt ld)) < eps /\ Rabs Y < eps /\ Rabs (Z - mean_square_momentum mass (ld_kt ld)) < eps.
Proof. exact equilibrium_reached. Qed.
Print Assumptions C101_reached.

(** Overdamped dynamics: the mean square of the position goes to 1 / k / (1 - k dt / 2), from any
    start and by the factor (1 - k dt)² per step. *)
Theorem C101_overdamped :
  forall W (mean : (W -> R) -> R) rng ld k d N (p0 : W -> particle) g walker,
  is_mean mean -> sized rng -> ld_kind ld = Overdamped -> well (ld_pot ld) d k ->
  0 < k -> 0 < ld_dt ld -> k * ld_dt ld < 2 ->
  (forall w, right_size (pot_ndim (ld_pot ld)) (p0 w) /\ consistent (ld_pot ld) (p0 w)) -> (forall w, follows rng ld (p0 w) (g w) (walker w)) ->
  white mean N (fun i w => nth d (draw rng (pot_ndim (ld_pot ld)) i (g w)) 0) (fun w => nth d (p_pos (p0 w)) 0) (fun w => nth d (p_mom (p0 w)) 0) ->
  forall n X0, (n <= N)%nat ->
  mean (fun w => nth d (p_pos (p0 w)) 0 * nth d (p_pos (p0 w)) 0) = X0 ->
  mean (fun w => nth d (p_pos (walker w n)) 0 * nth d (p_pos (walker w n)) 0) =
    mean_square_overdamped k (ld_dt ld) + (1 - k * ld_dt ld) ^ (2 * n) * (X0 - mean_square_overdamped k (ld_dt ld)).
Proof. exact @overdamped_square. Qed.
Print Assumptions C101_overdamped.

(** Polynomial potentials a + k/2 x² are such wells. *)
Theorem C101_polynomial : forall a k rs pot, poly_init (mkArr [3%nat] [a; 0; k / 2]) rs None = Ok pot -> well pot 0 k.
Proof. exact polynomial_well. Qed.
Print Assumptions C101_polynomial.

(** No step of these simulations fails. *)
Theorem C101_runs :
  forall rng ld friction mass p g, sized rng -> ld_kind ld = BussiParinello friction -> pot_bc (ld_pot ld) = None -> force_size (ld_pot ld) ->
  set_up ld friction mass p -> exists walker, follows rng ld p g walker.
Proof. exact walkers_exist. Qed.
Print Assumptions C101_runs.
Theorem C101_runs_overdamped :
  forall rng ld p g, sized rng -> ld_kind ld = Overdamped -> pot_bc (ld_pot ld) = None -> force_size (ld_pot ld) ->
  right_size (pot_ndim (ld_pot ld)) p -> consistent (ld_pot ld) p -> exists walker, follows rng ld p g walker.
Proof. exact overdamped_exist. Qed.
Print Assumptions C101_runs_overdamped.

(** Tosses of a coin for any number of random numbers; k = 2, dt = 1/10, kt = 1, mass 1, friction 1 *)
Example C101_case : forall N,
  let ld := demo_ld (BussiParinello 1) None in
  let start := coin_start ld (ld_c2 (ld_c1 1 (1/10)) 1 1) (sqrt (mean_square_position 2 1 1 (1/10))) (sqrt (mean_square_momentum 1 1)) in
  is_mean (coins (2 + N)) /\ sized coin_rng /\ well (ld_pot ld) 0 2 /\ 2 * ld_dt ld ^ 2 < 4 * 1 /\
  (forall w, set_up ld 1 1 (start w)) /\
  white (coins (2 + N)) N (fun i w => nth 0 (draw coin_rng 2 i (coin_state w)) 0) (fun w => nth 0 (p_pos (start w)) 0) (fun w => nth 0 (p_mom (start w)) 0) /\
  moments (coins (2 + N)) 0 start (mean_square_position 2 1 1 (1/10)) 0 (mean_square_momentum 1 1).
Proof.
  intros N. cbv zeta. split; [apply coins_ok|]. split; [exact coin_sized|]. split; [exact coin_well|]. split; [cbn; lra|].
  split; [intros w; apply coin_set_up|]. split; [apply coin_white|].
  apply coin_moments; unfold mean_square_position, mean_square_momentum; lra.
Qed.
