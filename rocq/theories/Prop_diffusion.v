(** Diffusion and drift, property C104 *)
From Coq Require Import Lra Lia.
From Verif Require Import PyBase Model_dyn Model_pot Spec_ld Spec_well Spec_diffusion Proof_well2 Proof_diffusion.
Open Scope R_scope.

(** Langevin dynamics along an axis without force: the mean square displacement after n steps is
    2 D n dt, up to a constant that does not depend on n, whatever the distribution of the momentum at the start. *)
Theorem C104_diffusion :
  forall W (mean : (W -> R) -> R) rng ld friction mass F d N (p0 : W -> particle) g walker,
  is_mean mean -> sized rng -> ld_kind ld = BussiParinello friction -> constant_force (ld_pot ld) d F ->
  0 < friction -> 0 < mass -> 0 < ld_kt ld -> 0 < ld_dt ld ->
  (forall w, set_up ld friction mass (p0 w)) -> (forall w, follows rng ld (p0 w) (g w) (walker w)) ->
  F = 0 ->
  white mean N (fun i w => nth d (draw rng (pot_ndim (ld_pot ld)) i (g w)) 0) (fun w => nth d (p_pos (p0 w)) 0) (fun w => nth d (p_mom (p0 w)) 0) ->
  forall Z0 n, mean (fun w => nth d (p_mom (p0 w)) 0 * nth d (p_mom (p0 w)) 0) = Z0 -> (2 * n <= N)%nat ->
  Rabs (mean (fun w => displacement d (walker w) n * displacement d (walker w) n)
        - 2 * diffusion mass (ld_kt ld) friction (ld_dt ld) * (INR n * ld_dt ld))
    <= (2 * (mass * ld_kt ld) + Rabs (Z0 - mass * ld_kt ld)) / (mass * friction) ^ 2.
Proof. exact @diffuses. Qed.
Print Assumptions C104_diffusion.

(** The coefficient is Einstein's kt / (mass friction), up to a second order term in the time step. *)
Theorem C104_coefficient :
  forall mass kt friction dt, 0 < friction -> 0 < mass -> 0 < kt -> 0 < dt ->
  kt / (mass * friction) <= diffusion mass kt friction dt <= kt / (mass * friction) * (1 + (friction * dt) ^ 2 / 12).
Proof. exact coefficient. Qed.
Print Assumptions C104_coefficient.

(** A constant force F makes the walkers drift with the mean velocity F D / kt, with the same D for every
    time step, up to a constant displacement that does not depend on n. *)
Theorem C104_drift :
  forall W (mean : (W -> R) -> R) rng ld friction mass F d N (p0 : W -> particle) g walker,
  is_mean mean -> sized rng -> ld_kind ld = BussiParinello friction -> constant_force (ld_pot ld) d F ->
  0 < friction -> 0 < mass -> 0 < ld_kt ld -> 0 < ld_dt ld ->
  (forall w, set_up ld friction mass (p0 w)) -> (forall w, follows rng ld (p0 w) (g w) (walker w)) ->
  centered mean N (fun i w => nth d (draw rng (pot_ndim (ld_pot ld)) i (g w)) 0) ->
  forall P0 n, mean (fun w => nth d (p_mom (p0 w)) 0) = P0 -> (2 * n <= N)%nat ->
  Rabs (mean (fun w => displacement d (walker w) n) - F * diffusion mass (ld_kt ld) friction (ld_dt ld) / ld_kt ld * (INR n * ld_dt ld))
    <= (Rabs P0 + Rabs F / friction) / (mass * friction).
Proof. exact @drifts. Qed.
Print Assumptions C104_drift.

(** Overdamped dynamics with a constant force F: the mean displacement is F n dt and the mean square deviation from it 2 n dt, exactly. *)
Theorem C104_overdamped_drift :
  forall W (mean : (W -> R) -> R) rng ld F d N (p0 : W -> particle) g walker,
  is_mean mean -> sized rng -> ld_kind ld = Overdamped -> constant_force (ld_pot ld) d F -> 0 < ld_dt ld ->
  (forall w, right_size (pot_ndim (ld_pot ld)) (p0 w) /\ consistent (ld_pot ld) (p0 w)) -> (forall w, follows rng ld (p0 w) (g w) (walker w)) ->
  forall n, centered mean N (fun i w => nth d (draw rng (pot_ndim (ld_pot ld)) i (g w)) 0) -> (n <= N)%nat ->
  mean (fun w => displacement d (walker w) n) = F * (INR n * ld_dt ld).
Proof. exact @od_drifts. Qed.
Print Assumptions C104_overdamped_drift.
Theorem C104_overdamped_diffusion :
  forall W (mean : (W -> R) -> R) rng ld F d N (p0 : W -> particle) g walker,
  is_mean mean -> sized rng -> ld_kind ld = Overdamped -> constant_force (ld_pot ld) d F -> 0 < ld_dt ld ->
  (forall w, right_size (pot_ndim (ld_pot ld)) (p0 w) /\ consistent (ld_pot ld) (p0 w)) -> (forall w, follows rng ld (p0 w) (g w) (walker w)) ->
  forall n, white mean N (fun i w => nth d (draw rng (pot_ndim (ld_pot ld)) i (g w)) 0) (fun w => nth d (p_pos (p0 w)) 0) (fun w => nth d (p_mom (p0 w)) 0) -> (n <= N)%nat ->
  mean (fun w => (displacement d (walker w) n - F * (INR n * ld_dt ld)) * (displacement d (walker w) n - F * (INR n * ld_dt ld))) = 2 * (INR n * ld_dt ld).
Proof. exact @od_diffuses. Qed.
Print Assumptions C104_overdamped_diffusion.

(** Polynomial potentials a - F x have this constant force (no force with F = 0). *)
Theorem C104_polynomial : forall a F rs pot, poly_init (mkArr [2%nat] [a; - F]) rs None = Ok pot -> constant_force pot 0 F.
Proof. exact polynomial_force. Qed.
Print Assumptions C104_polynomial.

(** Tosses of a coin for any number of random numbers; any force, friction 1, dt = 1/10, mass 1, kt = 1.
    Walkers exist by C101_runs. *)
Example C104_case : forall N F,
  let ld := mkLD (BussiParinello 1) (tilted F) (1/10) 1 in
  let start := coin_start ld (ld_c2 (ld_c1 1 (1/10)) 1 1) 3 (sqrt 2) in
  is_mean (coins (2 + N)) /\ sized coin_rng /\ constant_force (ld_pot ld) 0 F /\ (forall w, set_up ld 1 1 (start w)) /\
  (forall w, exists walker, follows coin_rng ld (start w) (coin_state w) walker) /\
  white (coins (2 + N)) N (fun i w => nth 0 (draw coin_rng 2 i (coin_state w)) 0) (fun w => nth 0 (p_pos (start w)) 0) (fun w => nth 0 (p_mom (start w)) 0) /\
  centered (coins (2 + N)) N (fun i w => nth 0 (draw coin_rng 2 i (coin_state w)) 0).
Proof.
  intros N F. cbv zeta. split; [apply coins_ok|]. split; [exact coin_sized|]. split; [exact (tilted_force F)|].
  split; [intros w; apply tilted_set_up; reflexivity|]. split; [|split; [apply coin_white|apply coin_centered]].
  intros w. destruct (tilted_force F) as (A & B & _). apply (walkers_exist coin_rng (mkLD (BussiParinello 1) (tilted F) (1/10) 1) 1 1); [exact coin_sized|reflexivity|exact A|exact B|apply tilted_set_up; reflexivity].
Qed.
