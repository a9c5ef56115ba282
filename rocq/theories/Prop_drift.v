(** Mean effect of a birth-death step, property C102 *)
From Coq Require Import Lra Lia.
From Verif Require Import PyBase Model_dyn Model_bd Spec_grid Spec_bd Spec_rng Spec_well Spec_drift Proof_bd2 Proof_drift Proof_drift2.
Open Scope R_scope.

(** Bulk mode. Averaged over the random numbers, the sum of any quantity f over the n walkers changes by
    - tau n / (n - 1) times the sum of beta_i (f_i - mean f), where tau = dt * rate factor, up to an
    error of second order in tau: the walkers follow the birth-death equation. *)
Theorem C102_mean_change :
  forall W (avg : (W -> R) -> R) rng gd par ps beta st g after f B,
  is_mean avg -> rng_ok rng -> bd_recalc par = false -> 0 <= bd_dt par -> 0 <= bd_rate par -> (2 <= length ps)%nat ->
  calc_betas gd par ps = Ok beta ->
  uniform_numbers avg (map (accept_prob (bd_dt par) (bd_rate par)) beta) (fun w => numbers rng (length ps) (g w)) ->
  fair_partners avg (map (accept_prob (bd_dt par) (bd_rate par)) beta) (fun w => numbers rng (length ps) (g w)) (fun i w => partner_number rng (length ps) i (g w)) ->
  (forall w, exists evs g' s', do_birth_death rng gd par (mkBS ps (g w) st) = Ok (evs, mkBS (after w) g' s')) ->
  Forall (fun p => Rabs (f p) <= B) ps ->
  Rabs (avg (fun w => sum_over f (after w) - sum_over f ps) - - (bd_dt par * bd_rate par * (INR (length ps) / INR (length ps - 1))) * rate_moment f beta ps)
    <= 6 * B * (bd_dt par * bd_rate par * total (map Rabs beta)) ^ 2.
Proof. exact drift_any. Qed.
Print Assumptions C102_mean_change.

(** In particular the mean number of walkers in a region falls if their rates are above average, and grows if they are below. *)
Theorem C102_region :
  forall W (avg : (W -> R) -> R) rng gd par ps beta st g after (region : particle -> bool),
  is_mean avg -> rng_ok rng -> bd_recalc par = false -> 0 <= bd_dt par -> 0 <= bd_rate par -> (2 <= length ps)%nat ->
  calc_betas gd par ps = Ok beta ->
  uniform_numbers avg (map (accept_prob (bd_dt par) (bd_rate par)) beta) (fun w => numbers rng (length ps) (g w)) ->
  fair_partners avg (map (accept_prob (bd_dt par) (bd_rate par)) beta) (fun w => numbers rng (length ps) (g w)) (fun i w => partner_number rng (length ps) i (g w)) ->
  (forall w, exists evs g' s', do_birth_death rng gd par (mkBS ps (g w) st) = Ok (evs, mkBS (after w) g' s')) ->
  Rabs (avg (fun w => inhabitants region (after w) - inhabitants region ps) - - (bd_dt par * bd_rate par * (INR (length ps) / INR (length ps - 1))) * excess_rate region beta ps)
    <= 6 * (bd_dt par * bd_rate par * total (map Rabs beta)) ^ 2.
Proof. exact drift_region. Qed.
Print Assumptions C102_region.

(** three walkers with rates -2, -1 and 3; all combinations of events and partners with their probabilities *)
Example C102_case : forall gd,
  let prob := map (accept_prob (bd_dt (demo_par false)) (bd_rate (demo_par false))) [-2; -1; 3] in
  is_mean (cases_avg prob) /\ rng_ok list_rng /\ bd_recalc (demo_par false) = false /\ calc_betas gd (demo_par false) three_walkers = Ok [-2; -1; 3] /\
  uniform_numbers (cases_avg prob) prob (fun w => numbers list_rng 3 (case_state prob w)) /\
  fair_partners (cases_avg prob) prob (fun w => numbers list_rng 3 (case_state prob w)) (fun i w => partner_number list_rng 3 i (case_state prob w)) /\
  excess_rate (fun p => match p_energy p with e => if Rlt_dec e 2 then true else false end) [-2; -1; 3] three_walkers = -3.
Proof.
  intros gd prob. pose proof three_probs as P. change (Forall (fun p => 0 <= p < 1) prob) in P.
  assert (L : (2 <= length prob)%nat) by (cbn; lia).
  split; [exact (cases_avg_ok prob P L)|]. split; [exact list_rng_ok|]. split; [reflexivity|]. split; [apply three_betas|].
  split; [exact (cases_uniform prob P L)|]. split; [exact (cases_fair prob P L)|].
  unfold excess_rate, three_walkers, average, total. cbn [combine map fst snd p_energy fold_right length].
  destruct (Rlt_dec 0 2); [|lra]. destruct (Rlt_dec 1 2); [|lra]. destruct (Rlt_dec 5 2); [lra|]. cbn [INR]. lra.
Qed.
