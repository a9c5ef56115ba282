(** Property C62: birth-death leaves walkers in equilibrium alone *)
From Coq Require Import Lra Lia.
From Verif Require Import PyBase Model_dyn Model_grid Model_corr Model_bd Spec_grid Spec_rng Spec_bd Spec_bdrun Spec_equil Proof_bd Proof_equil.
Open Scope R_scope.

(** the rates of two walkers differ by the logarithm of the ratio of (density of the walkers /
    Boltzmann weight) *)
Theorem C62_rate_differences :
  forall n_dim gd par ps, bd_variant par = VOrig ->
  walkers_ok n_dim (bd_bw par) (map p_pos ps) -> ps <> [] ->
  exists beta, calc_betas gd par ps = Ok beta /\ length beta = length ps /\
  forall i j pi pj, nth_error ps i = Some pi -> nth_error ps j = Some pj ->
    nth i beta 0 - nth j beta 0 =
    ln (kde (bd_bw par) (map p_pos ps) (p_pos pi) / kde (bd_bw par) (map p_pos ps) (p_pos pj))
    + (p_energy pi - p_energy pj) / bd_kt par.
Proof. exact rate_differences. Qed.
Print Assumptions C62_rate_differences.

(** all rates vanish exactly if the density of the walkers is proportional to exp(-U/kt) *)
Theorem C62_equilibrium :
  forall n_dim gd par ps, bd_variant par = VOrig ->
  walkers_ok n_dim (bd_bw par) (map p_pos ps) -> ps <> [] ->
  (calc_betas gd par ps = Ok (repeat 0 (length ps)) <->
   distributed_as (fun i => nth i (map p_energy ps) 0 / bd_kt par) (bd_bw par) (map p_pos ps)).
Proof. exact equilibrium_orig. Qed.
Print Assumptions C62_equilibrium.

(** multiplicative variant: exactly if it is proportional to exp(-correction) *)
Theorem C62_multiplicative :
  forall n_dim gd par g ps, griddata_pointwise gd -> bd_variant par = VMult -> bd_grid par = Some g ->
  walkers_ok n_dim (bd_bw par) (map p_pos ps) -> ps <> [] ->
  (calc_betas gd par ps = Ok (repeat 0 (length ps)) <->
   distributed_as (fun i => nth i (interpolate gd g (map p_pos ps) 0) 0) (bd_bw par) (map p_pos ps)).
Proof. exact equilibrium_mult. Qed.
Print Assumptions C62_multiplicative.

(** additive variant: the rates are the corrections exactly if it is proportional to exp(-U/kt) *)
Theorem C62_additive :
  forall n_dim gd par g ps, griddata_pointwise gd -> bd_variant par = VAdd -> bd_grid par = Some g ->
  walkers_ok n_dim (bd_bw par) (map p_pos ps) -> ps <> [] ->
  (calc_betas gd par ps = Ok (interpolate gd g (map p_pos ps) 0) <->
   distributed_as (fun i => nth i (map p_energy ps) 0 / bd_kt par) (bd_bw par) (map p_pos ps)).
Proof. exact equilibrium_add. Qed.
Print Assumptions C62_additive.

(** then nothing happens in either mode, unless a random number is exactly zero *)
Theorem C62_no_events :
  forall rng gd par st, rng_ok rng ->
  calc_betas gd par (bs_ps st) = Ok (repeat 0 (length (bs_ps st))) ->
  Forall (fun r => 0 < r) (fst (r_random rng (length (bs_ps st)) (bs_rng st))) ->
  exists st', do_birth_death rng gd par st = Ok ([], st') /\ bs_ps st' = bs_ps st /\
    dup_count (bs_stats st') = dup_count (bs_stats st) /\ kill_count (bs_stats st') = kill_count (bs_stats st).
Proof. exact no_events. Qed.
Print Assumptions C62_no_events.

(** three walkers in equilibrium, with different energies *)
Example C62_case :
  walkers_ok 1 [1] (map p_pos eq_walkers) /\
  distributed_as (fun i => nth i (map p_energy eq_walkers) 0 / 2) [1] (map p_pos eq_walkers) /\
  p_energy (eq_walker [0]) <> p_energy (eq_walker [1]) /\
  forall rec, exists st', do_birth_death demo_rng (fun _ _ qs _ => map (fun _ => 0) qs) (eq_par rec)
    (mkBS (rng := demo_rng) eq_walkers 0%nat stats0) = Ok ([], st') /\ bs_ps st' = eq_walkers.
Proof. exact (conj eq_ok (conj eq_case (conj eq_different eq_quiet))). Qed.
