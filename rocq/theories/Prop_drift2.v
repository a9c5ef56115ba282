(** Mean effect of a birth-death step that recalculates the rates, property C103 *)
From Coq Require Import Lra Lia.
From Verif Require Import PyBase Model_dyn Model_bd Spec_grid Spec_bd Spec_rng Spec_well Spec_drift Spec_drift2 Proof_bd2 Proof_drift4.
Open Scope R_scope.

(** The claim is false. Whatever the constant C of the allowed error of second order, there are walkers and
    a time step for which the mean number of walkers in a region does not follow the birth-death equation. *)
Theorem C103_recalculate_refuted :
  forall gd C, exists W (avg : (W -> R) -> R) rng par ps beta st g after (region : particle -> bool) bmax,
  is_mean avg /\ rng_ok rng /\ bd_recalc par = true /\ 0 <= bd_dt par /\ 0 <= bd_rate par /\ (2 <= length ps)%nat /\
  calc_betas gd par ps = Ok beta /\ rates_bounded gd par ps bmax /\
  uniform_numbers avg (repeat (accept_prob (bd_dt par) (bd_rate par) bmax) (length ps)) (fun w => numbers rng (length ps) (g w)) /\
  fair_partners avg (map (accept_prob (bd_dt par) (bd_rate par)) beta) (fun w => numbers rng (length ps) (g w)) (fun _ w => first_partner rng (length ps) (g w)) /\
  (forall w, exists evs g' s', do_birth_death rng gd par (mkBS ps (g w) st) = Ok (evs, mkBS (after w) g' s')) /\
  ~ Rabs (avg (fun w => inhabitants region (after w) - inhabitants region ps) - - (bd_dt par * bd_rate par * (INR (length ps) / INR (length ps - 1))) * excess_rate region beta ps)
    <= C * (bd_dt par * bd_rate par * (INR (length ps) * bmax)) ^ 2.
Proof. exact recalc_refuted. Qed.
Print Assumptions C103_recalculate_refuted.

(** What holds instead: the mean change is that of the birth-death equation with the opposite sign. *)
Theorem C103_exact :
  forall W (avg : (W -> R) -> R) rng gd par ps beta st g after f B bmax,
  is_mean avg -> rng_ok rng -> bd_recalc par = true -> 0 <= bd_dt par -> 0 <= bd_rate par -> (2 <= length ps)%nat ->
  calc_betas gd par ps = Ok beta -> rates_bounded gd par ps bmax ->
  uniform_numbers avg (repeat (accept_prob (bd_dt par) (bd_rate par) bmax) (length ps)) (fun w => numbers rng (length ps) (g w)) ->
  fair_partners avg (map (accept_prob (bd_dt par) (bd_rate par)) beta) (fun w => numbers rng (length ps) (g w)) (fun _ w => first_partner rng (length ps) (g w)) ->
  (forall w, exists evs g' s', do_birth_death rng gd par (mkBS ps (g w) st) = Ok (evs, mkBS (after w) g' s')) ->
  Forall (fun p => Rabs (f p) <= B) ps ->
  Rabs (avg (fun w => sum_over f (after w) - sum_over f ps) - bd_dt par * bd_rate par * (INR (length ps) / INR (length ps - 1)) * rate_moment f beta ps)
    <= 6 * B * (bd_dt par * bd_rate par * (INR (length ps) * bmax)) ^ 2.
Proof. exact recalc_any. Qed.
Print Assumptions C103_exact.

(** In particular the mean number of walkers in a region grows if their rates are above average. *)
Theorem C103_region_exact :
  forall W (avg : (W -> R) -> R) rng gd par ps beta st g after (region : particle -> bool) bmax,
  is_mean avg -> rng_ok rng -> bd_recalc par = true -> 0 <= bd_dt par -> 0 <= bd_rate par -> (2 <= length ps)%nat ->
  calc_betas gd par ps = Ok beta -> rates_bounded gd par ps bmax ->
  uniform_numbers avg (repeat (accept_prob (bd_dt par) (bd_rate par) bmax) (length ps)) (fun w => numbers rng (length ps) (g w)) ->
  fair_partners avg (map (accept_prob (bd_dt par) (bd_rate par)) beta) (fun w => numbers rng (length ps) (g w)) (fun _ w => first_partner rng (length ps) (g w)) ->
  (forall w, exists evs g' s', do_birth_death rng gd par (mkBS ps (g w) st) = Ok (evs, mkBS (after w) g' s')) ->
  Rabs (avg (fun w => inhabitants region (after w) - inhabitants region ps) - bd_dt par * bd_rate par * (INR (length ps) / INR (length ps - 1)) * excess_rate region beta ps)
    <= 6 * (bd_dt par * bd_rate par * (INR (length ps) * bmax)) ^ 2.
Proof. exact recalc_region. Qed.
Print Assumptions C103_region_exact.

(** two walkers with rates -1 and 1 and any time step t; all combinations of random numbers *)
Example C103_case : forall gd t, 0 < t ->
  let avg := cases_avg [two_prob t; two_prob t] in let g := case_state [two_prob t; two_prob t] in let par := two_par t in
  is_mean avg /\ rng_ok list_rng /\ bd_recalc par = true /\ calc_betas gd par two_walkers = Ok [-1; 1] /\ rates_bounded gd par two_walkers 1 /\
  uniform_numbers avg (repeat (accept_prob (bd_dt par) (bd_rate par) 1) 2) (fun w => numbers list_rng 2 (g w)) /\
  fair_partners avg (map (accept_prob (bd_dt par) (bd_rate par)) [-1; 1]) (fun w => numbers list_rng 2 (g w)) (fun _ w => first_partner list_rng 2 (g w)) /\
  (forall w, exists evs g' s', do_birth_death list_rng gd par (mkBS two_walkers (g w) stats0) = Ok (evs, mkBS (two_after gd t w) g' s')).
Proof. exact two_instance. Qed.
