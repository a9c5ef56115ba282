(** Properties C14-C21 and C53: birth-death *)
From Coq Require Import Lia Lra Permutation.
From Verif Require Import PyBase Model_dyn Model_grid Model_bd Spec_times Spec_grid Spec_rng Spec_bd Spec_bdrun
  Proof_dens Proof_bd Proof_bd2.
Open Scope R_scope.

(** C14: both modes conserve the number of walkers, execute the returned events (dup, kill) one
    after another, only make copies and leave the walkers not listed as killed unchanged. *)
Theorem C14_conservation :
  forall rng gd par st evs st', rng_ok rng -> do_birth_death rng gd par st = Ok (evs, st') ->
  length (bs_ps st') = length (bs_ps st) /\
  bs_ps st' = execute (bs_ps st) evs /\
  Forall (fun ev => (fst ev < length (bs_ps st))%nat /\ (snd ev < length (bs_ps st))%nat) evs /\
  (forall w, In w (bs_ps st') -> In w (bs_ps st)) /\
  (forall i, ~ In i (map snd evs) -> nth_error (bs_ps st') i = nth_error (bs_ps st) i).
Proof. exact bd_conserves. Qed.
Print Assumptions C14_conservation.

(** two walkers at the same place, energies 0 and 2: the second one is replaced twice *)
Example C14_case : forall gd, exists st',
  do_birth_death demo_rng gd (demo_par false) (mkBS (rng := demo_rng) demo_walkers 0%nat stats0)
    = Ok ([(0, 1); (0, 1)]%nat, st').
Proof. exact demo_bulk. Qed.

(** in bulk mode the step succeeds for two or more walkers *)
Theorem C14_bulk_succeeds :
  forall rng gd par st beta, rng_ok rng -> bd_recalc par = false ->
  (2 <= length (bs_ps st))%nat -> calc_betas gd par (bs_ps st) = Ok beta ->
  exists evs st', do_birth_death rng gd par st = Ok (evs, st').
Proof. exact bulk_total. Qed.
Print Assumptions C14_bulk_succeeds.

Example C14_bulk_succeeds_case : rng_ok demo_rng /\ bd_recalc (demo_par false) = false /\
  (2 <= length demo_walkers)%nat /\ forall gd, calc_betas gd (demo_par false) demo_walkers = Ok [-1; 1].
Proof. split; [exact demo_rng_ok|]. split; [reflexivity|]. split; [cbn; lia|]. intros; apply demo_betas. Qed.

(** C15: the value of random_other(n, i) is a bijective function of the uniform draw from
    {0..n-2} onto {0..n-1} without i *)
Theorem C15_random_other :
  forall n i, (2 <= n)%nat -> (i < n)%nat ->
  exists f : nat -> nat,
    (forall rng g, random_other rng n i g =
       Ok (f (fst (r_integers rng (n - 1) g)), snd (r_integers rng (n - 1) g))) /\
    (forall d, (d < n - 1)%nat -> (f d < n)%nat /\ f d <> i) /\
    (forall d1 d2, (d1 < n - 1)%nat -> (d2 < n - 1)%nat -> f d1 = f d2 -> d1 = d2) /\
    (forall j, (j < n)%nat -> j <> i -> exists d, (d < n - 1)%nat /\ f d = j).
Proof. exact random_other_uniform. Qed.
Print Assumptions C15_random_other.

Theorem C15_fails_only_alone :
  forall rng n i g, (n <= 1)%nat <-> random_other rng n i g = Err ValueError.
Proof. exact random_other_fails. Qed.
Print Assumptions C15_fails_only_alone.

Example C15_case : random_other demo_rng 4 1 5%nat = Ok (3%nat, 6%nat) /\
  random_other demo_rng 4 1 3%nat = Ok (0%nat, 4%nat).
Proof. split; reflexivity. Qed.

(** C16: events of the bulk mode; [order] are the accepted walkers in shuffled order *)
Theorem C16_bulk_events :
  forall rng gd par st evs st', rng_ok rng -> bd_recalc par = false ->
  do_birth_death rng gd par st = Ok (evs, st') ->
  exists beta rand order,
    calc_betas gd par (bs_ps st) = Ok beta /\
    rand = fst (r_random rng (length (bs_ps st)) (bs_rng st)) /\
    NoDup order /\
    (forall i, In i order <-> (i < length (bs_ps st))%nat /\
                 nth i rand 0 <= accept_prob (bd_dt par) (bd_rate par) (nth i beta 0)) /\
    bulk_events (length (bs_ps st)) beta order [] evs.
Proof. exact bulk_mode_events. Qed.
Print Assumptions C16_bulk_events.

(** the case of C14_case: both walkers accept *)
Example C16_case :
  bulk_events 2 [-1; 1] [1; 0]%nat [] [(0, 1); (0, 1)]%nat.
Proof.
  apply be_kill; [intros []|cbn; lra|lia|lia|]. apply be_dup; [intros [H|[]]; lia|cbn; lra|lia|lia|]. constructor.
Qed.

(** C17 is refuted: a run with the option recalculate-probs in which the first event duplicates a
    walker with positive rate and kills one with negative rate, so neither of the two can have
    triggered an event as documented. *)
Theorem C17_recalculate_refuted :
  forall gd, exists rng par st evs st' beta dup kill,
  rng_ok rng /\ bd_recalc par = true /\ do_birth_death rng gd par st = Ok (evs, st') /\
  calc_betas gd par (bs_ps st) = Ok beta /\ hd_error evs = Some (dup, kill) /\
  0 < nth dup beta 0 /\ nth kill beta 0 < 0.
Proof. exact recalc_swapped. Qed.
Print Assumptions C17_recalculate_refuted.

(** what happens instead in every run (see Spec_bdrun.v): the direction is always the opposite,
    and a rate of exactly zero repeats the previous event *)
Theorem C17_recalculate_exact :
  forall rng gd par st evs st', rng_ok rng -> bd_recalc par = true ->
  do_birth_death rng gd par st = Ok (evs, st') ->
  exists beta rand order,
    calc_betas gd par (bs_ps st) = Ok beta /\
    rand = fst (r_random rng (length (bs_ps st)) (bs_rng st)) /\
    Permutation order (seq 0 (length (bs_ps st))) /\
    recalc_events (length (bs_ps st)) (fun ws b => calc_betas gd par ws = Ok b)
      (accept_prob (bd_dt par) (bd_rate par)) rand order beta None (bs_ps st) evs.
Proof. exact recalc_mode_events. Qed.
Print Assumptions C17_recalculate_exact.

Example C17_exact_case : forall gd, exists st',
  do_birth_death demo_rng gd (demo_par true) (mkBS (rng := demo_rng) demo_walkers 0%nat stats0)
    = Ok ([(1, 0)%nat], st').
Proof. exact demo_recalc. Qed.

(** and if the first walkers visited all have rate zero, a draw of zero crashes *)
Theorem C17_unbound :
  forall gd par (p : particle) n, bd_recalc par = true -> (2 <= n)%nat ->
  bd_variant par = VOrig -> walkers_ok (length (p_pos p)) (bd_bw par) [p_pos p] ->
  do_birth_death zero_rng gd par (mkBS (rng := zero_rng) (repeat p n) tt stats0) = Err UnboundLocalError.
Proof. exact recalc_unbound. Qed.
Print Assumptions C17_unbound.

Example C17_unbound_case : walkers_ok 1 (bd_bw (demo_par true)) [[3]].
Proof. exact (demo_ok [mkP [3] [0] 1 0 [] 0] ltac:(repeat constructor)). Qed.

(** C18: in every reachable state there are at most as many successes as attempts *)
Theorem C18_successes :
  forall rng gd par st, rng_ok rng -> bd_reach rng gd par st ->
  (dup_count (bs_stats st) <= dup_attempts (bs_stats st) /\
   kill_count (bs_stats st) <= kill_attempts (bs_stats st))%nat.
Proof. exact bd_reach_stats. Qed.
Print Assumptions C18_successes.

(** bulk mode: every walker is an attempt and every event a success.  Deaths are attempted by the
    walkers with positive rate. *)
Theorem C18_bulk :
  forall rng gd par st evs st', rng_ok rng -> bd_recalc par = false ->
  do_birth_death rng gd par st = Ok (evs, st') ->
  let s := bs_stats st in let s' := bs_stats st' in
  (kill_attempts s' + dup_attempts s' = kill_attempts s + dup_attempts s + length (bs_ps st) /\
   kill_count s' + dup_count s' = kill_count s + dup_count s + length evs)%nat /\
  exists beta, calc_betas gd par (bs_ps st) = Ok beta /\
    kill_attempts s' = (kill_attempts s + length (filter (fun b => if Rlt_dec 0 b then true else false) beta))%nat.
Proof. exact bulk_stats. Qed.
Print Assumptions C18_bulk.

Theorem C18_recalculate :
  forall rng gd par st evs st', rng_ok rng -> bd_recalc par = true ->
  do_birth_death rng gd par st = Ok (evs, st') ->
  let s := bs_stats st in let s' := bs_stats st' in
  (kill_attempts s <= kill_attempts s' /\ dup_attempts s <= dup_attempts s' /\
   kill_attempts s' + dup_attempts s' <= kill_attempts s + dup_attempts s + length (bs_ps st) /\
   kill_count s <= kill_count s' /\ dup_count s <= dup_count s' /\
   kill_count s' + dup_count s' <= kill_count s + dup_count s + length evs)%nat.
Proof. exact recalc_stats. Qed.
Print Assumptions C18_recalculate.

(** a reachable state with counts: after the step of C14_case *)
Example C18_case : forall gd, exists st,
  bd_reach demo_rng gd (demo_par false) st /\ bs_stats st = mkStats 1 1 1 1.
Proof. exact demo_reach. Qed.

(** C19: rates, with their formula *)
Theorem C19_original :
  forall n_dim gd par ps, bd_variant par = VOrig ->
  walkers_ok n_dim (bd_bw par) (map p_pos ps) -> ps <> [] ->
  exists beta, calc_betas gd par ps = Ok beta /\ length beta = length ps /\ total beta = 0 /\
    exists c, forall i, (i < length ps)%nat ->
      nth i beta 0 = ln (average (map (gauss_kernel (bd_bw par) (nth i (map p_pos ps) [])) (map p_pos ps)))
                     + nth i (map p_energy ps) 0 / bd_kt par - c.
Proof. exact betas_sum_orig. Qed.
Print Assumptions C19_original.

Theorem C19_multiplicative :
  forall n_dim gd par g ps, griddata_pointwise gd -> bd_variant par = VMult -> bd_grid par = Some g ->
  walkers_ok n_dim (bd_bw par) (map p_pos ps) -> ps <> [] ->
  exists beta, calc_betas gd par ps = Ok beta /\ length beta = length ps /\ total beta = 0 /\
    exists c, forall i, (i < length ps)%nat ->
      nth i beta 0 = ln (average (map (gauss_kernel (bd_bw par) (nth i (map p_pos ps) [])) (map p_pos ps)))
                     + nth i (interpolate gd g (map p_pos ps) 0) 0 - c.
Proof. exact betas_sum_mult. Qed.
Print Assumptions C19_multiplicative.

Theorem C19_additive :
  forall n_dim gd par g ps, griddata_pointwise gd -> bd_variant par = VAdd -> bd_grid par = Some g ->
  walkers_ok n_dim (bd_bw par) (map p_pos ps) -> ps <> [] ->
  exists beta, calc_betas gd par ps = Ok beta /\ length beta = length ps /\
    total beta = total (interpolate gd g (map p_pos ps) 0) /\
    exists c, forall i, (i < length ps)%nat ->
      nth i beta 0 = ln (average (map (gauss_kernel (bd_bw par) (nth i (map p_pos ps) [])) (map p_pos ps)))
                     + nth i (map p_energy ps) 0 / bd_kt par - c
                     + nth i (interpolate gd g (map p_pos ps) 0) 0.
Proof. exact betas_sum_add. Qed.
Print Assumptions C19_additive.

Theorem C19_energy_shift :
  forall n_dim gd par ps c, walkers_ok n_dim (bd_bw par) (map p_pos ps) ->
  calc_betas gd par (map (fun p => mkP (p_pos p) (p_mom p) (p_mass p) (p_energy p + c) (p_forces p) (p_c2 p)) ps)
  = calc_betas gd par ps.
Proof. exact betas_energy_shift. Qed.
Print Assumptions C19_energy_shift.

(** the pairs of walker and rate do not depend on the order of the walkers *)
Theorem C19_permutation :
  forall n_dim gd par ps ps', griddata_pointwise gd -> (bd_variant par = VOrig \/ bd_grid par <> None) ->
  walkers_ok n_dim (bd_bw par) (map p_pos ps) -> ps <> [] -> Permutation ps ps' ->
  exists beta beta', calc_betas gd par ps = Ok beta /\ calc_betas gd par ps' = Ok beta' /\
    Permutation (combine ps beta) (combine ps' beta').
Proof. exact betas_perm. Qed.
Print Assumptions C19_permutation.

Theorem C19_single :
  forall n_dim gd par p beta, walkers_ok n_dim (bd_bw par) [p_pos p] -> bd_variant par <> VAdd ->
  calc_betas gd par [p] = Ok beta -> beta = [0].
Proof. exact betas_single. Qed.
Print Assumptions C19_single.

(** a grid, variant and interpolation satisfying the hypotheses *)
Example C19_case :
  let gd : griddata_t R := fun _ _ qs _ => map (fun q => nth 0 q 0) qs in
  let g : grid R := mkGrid (mkArr [2; 2]%nat [0; 0; 1; 1]) [(0, 1); (0, 1)] [2; 2]%nat [1; 1] 2 in
  let par := mkBD 10 (1/10) [1; 2] 2 1 false VAdd (Some g) None false in
  let ps := [mkP [0; 1] [0; 0] 1 3 [] 0; mkP [1; 1] [0; 0] 1 1 [] 0] in
  griddata_pointwise gd /\ bd_grid par = Some g /\ walkers_ok 2 (bd_bw par) (map p_pos ps) /\
  total (interpolate gd g (map p_pos ps) 0) = 1.
Proof.
  cbv zeta. split; [exists (fun _ _ _ q => nth 0 q 0); reflexivity|]. split; [reflexivity|]. split.
  - split; [reflexivity|]. split; repeat constructor; lra.
  - unfold total, interpolate; cbn. lra.
Qed.

(** C20 *)
Theorem C20_event_probability :
  forall par, 0 < bd_dt par -> 0 < bd_rate par ->
  (forall b, event_prob par b = 1 - exp (- (Rabs b * bd_dt par * bd_rate par))) /\
  (forall b, 0 <= event_prob par b < 1) /\
  (forall b, event_prob par b = 0 <-> b = 0) /\
  (forall b, event_prob par (- b) = event_prob par b) /\
  (forall b1 b2, Rabs b1 < Rabs b2 -> event_prob par b1 < event_prob par b2).
Proof. exact event_prob_full. Qed.
Print Assumptions C20_event_probability.

(** the time between two birth-death steps and the factor of the object made from the
    parameters of the user (no factor, or zero, gives 1) *)
Theorem C20_parameters :
  forall gd nan md_dt stride bw kt rate recalc var eqd ss tf par,
  bd_init gd nan md_dt stride bw kt rate recalc var eqd ss tf = Ok par ->
  bd_stride par = stride /\ bd_bw par = bw /\ bd_kt par = kt /\ bd_recalc par = recalc /\
  bd_variant par = match var with Some v => v | None => VOrig end /\ bd_stats_stride par = ss /\
  exists factor, (match rate with Some x => (x <> 0 -> factor = x) /\ (x = 0 -> factor = 1) | None => factor = 1 end) /\
    forall b, event_prob par b = accept_prob (md_dt * IZR stride) factor b.
Proof. exact bd_init_parameters. Qed.
Print Assumptions C20_parameters.

Example C20_case2 : forall gd, exists par,
  bd_init gd 0 (1/100) 20 [1/10] 1 (Some (1/2)) false None None None false = Ok par /\ bd_dt par = 1/5.
Proof.
  intros gd. unfold bd_init. destruct (Req_EM_T 1 0); [lra|]. eexists. split; [reflexivity|]. cbn. lra.
Qed.

Example C20_case : 0 < bd_dt (demo_par false) /\ 0 < bd_rate (demo_par false).
Proof. cbn; lra. Qed.

(** C21 *)
Theorem C21_walker_density :
  forall n_dim bw pos, walkers_ok n_dim bw pos -> pos <> [] ->
  exists d, walker_density pos bw = Ok d /\ walker_density_pdist pos bw = Ok d /\
    walker_density_manual pos bw = d /\ length d = length pos /\
    forall i, (i < length pos)%nat ->
      nth i d 0 = average (map (gauss_kernel bw (nth i pos [])) pos) /\
      gauss_height bw / INR (length pos) <= nth i d 0 <= gauss_height bw /\ 0 < nth i d 0.
Proof. exact density_full. Qed.
Print Assumptions C21_walker_density.

Example C21_case : walkers_ok 3 [1; 2; 1/10] [[0; 1; 2]; [1; 2; 0]; [0; 1; 2]; [5; 5; 5]].
Proof. split; [reflexivity|]. split; repeat constructor; lra. Qed.

(** C53, exact behaviour: [stats_at k] are the counters after k time steps.  With stats-stride the
    reports are those at its multiples.  Without it one report is written at the end. *)
Theorem C53_reports_exact :
  forall rng gd par move st n b out, (0 <= n)%Z ->
  bd_simulation rng gd par move n st = Ok (b, out) ->
  exists stats_at : Z -> stats,
    (forall k, (0 <= k <= n)%Z -> exists b' out',
       bd_loop rng gd par move k st = Ok (b', out') /\ bs_stats b' = stats_at k) /\
    map (fun r => (rep_step r, rep_stats r)) out =
    map (fun k => (k, stats_at k))
      (match bd_stats_stride par with
       | Some s => if (s =? 0)%Z then [n] else times 0 n s
       | None => [n]
       end).
Proof. exact bd_simulation_reports. Qed.
Print Assumptions C53_reports_exact.

(** The reports on the screen show, besides the counters, the percentages of successful death and
    birth events and the ratios of birth to death events; nan where the denominator is zero.
    Reports to a file consist of the counters only. *)
Theorem C53_screen :
  forall rng gd par move st n b out, (0 <= n)%Z ->
  bd_simulation rng gd par move n st = Ok (b, out) ->
  Forall (fun r => if bd_to_file par then rep_screen r = None else
    exists death birth succ att, rep_screen r = Some (death, birth, succ, att) /\
      quotient 100 (kill_count (rep_stats r)) (kill_attempts (rep_stats r)) death /\
      quotient 100 (dup_count (rep_stats r)) (dup_attempts (rep_stats r)) birth /\
      quotient 1 (dup_count (rep_stats r)) (kill_count (rep_stats r)) succ /\
      quotient 1 (dup_attempts (rep_stats r)) (kill_attempts (rep_stats r)) att) out.
Proof. exact bd_simulation_screen. Qed.
Print Assumptions C53_screen.

(** the documented part: with a stats-stride *)
Theorem C53_with_stride_partial :
  forall rng gd par move st n b out s, (0 <= n)%Z -> bd_stats_stride par = Some s -> (0 < s)%Z ->
  bd_simulation rng gd par move n st = Ok (b, out) ->
  exists stats_at : Z -> stats,
    (forall k, (0 <= k <= n)%Z -> exists b' out',
       bd_loop rng gd par move k st = Ok (b', out') /\ bs_stats b' = stats_at k) /\
    map (fun r => (rep_step r, rep_stats r)) out = map (fun k => (k, stats_at k)) (times 0 n s).
Proof. exact bd_reports_stride. Qed.
Print Assumptions C53_with_stride_partial.

(** refuted: "without stats-stride no statistics are written" *)
Theorem C53_without_stride_refuted :
  forall rng gd par move st n b out, (0 <= n)%Z -> bd_stats_stride par = None ->
  bd_simulation rng gd par move n st = Ok (b, out) -> length out = 1%nat.
Proof. exact bd_reports_none. Qed.
Print Assumptions C53_without_stride_refuted.

(** one step of the walkers of C14_case *)
Example C53_case : forall gd, exists b out,
  bd_simulation demo_rng gd (demo_par false) (fun _ ps => ps) 1 (mkBS (rng := demo_rng) demo_walkers 0%nat stats0)
    = Ok (b, out) /\
  map (fun r => (rep_step r, rep_stats r)) out = [(1%Z, mkStats 1 1 1 1)].
Proof. exact demo_simulation. Qed.
