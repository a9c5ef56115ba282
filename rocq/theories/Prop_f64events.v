(** Birth-death events in float64 arithmetic, C95 *)
From Verif Require Import Model_f64sim Spec_f64sim Proof_f64sim2 Proof_f64sim3 Proof_f64sim4.
From Flocq Require Import Core.Raux.
Open Scope R_scope.

(** ** C95 *)
(** Bulk mode (compare C16 and C18): up to the rounding of the rates and of the probabilities, the events, the walkers afterwards and the counters
    are those of the algorithm with exact numbers. *)
Theorem C95_bulk : forall fexp flog np_sum rng s, exp_ok fexp -> log_all_ok flog -> sums np_sum -> frng_ok rng -> sim_ok s ->
  forall M, energies_below s M ->
  forall k ps st g, Forall (healthy s k) ps -> (2 <= length ps)%nat -> (Z.of_nat (length ps) <= 10000)%Z -> fs_recalc s = false ->
  exists ps' st' g' evs beta prob order,
    f_birth_death fexp flog np_sum rng s ps st g = Ok (ps', st', g') /\
    near_rates s M ps beta /\ near_prob s prob /\ NoDup order /\
    (forall i, In i order <-> (i < length ps)%nat /\ val (nth i (fst (fr_random rng (length ps) g)) fzero) <= val (prob (nth i beta fzero))) /\
    bulk_events (length ps) (map val beta) order [] evs /\
    ps' = execute ps evs /\
    (kill_attempts st' + dup_attempts st' = kill_attempts st + dup_attempts st + length ps /\
     kill_attempts st' = kill_attempts st + length (filter (fun b => if Rlt_dec 0 (val b) then true else false) beta) /\
     kill_count st' + dup_count st' = kill_count st + dup_count st + length evs)%nat.
Proof. exact bulk_float. Qed.
Print Assumptions C95_bulk.

(** Recalculation mode (compare C17): new rates after every event, and the direction of the events is the opposite of bulk mode. *)
Theorem C95_recalculate : forall fexp flog np_sum rng s, exp_ok fexp -> log_all_ok flog -> sums np_sum -> frng_ok rng -> sim_ok s ->
  forall M, energies_below s M ->
  forall k ps st g, Forall (healthy s k) ps -> (2 <= length ps)%nat -> (Z.of_nat (length ps) <= 10000)%Z -> fs_recalc s = true -> never_zero rng ->
  exists ps' st' g' evs beta prob order,
    f_birth_death fexp flog np_sum rng s ps st g = Ok (ps', st', g') /\
    near_rates s M ps beta /\ near_prob s prob /\ Permutation order (seq 0 (length ps)) /\
    recalc_moves (length ps) (near_rates s M) prob (fst (fr_random rng (length ps) g)) order beta None ps evs /\
    ps' = execute ps evs /\
    (kill_attempts st' + dup_attempts st' <= kill_attempts st + dup_attempts st + length ps /\
     kill_count st' + dup_count st' = kill_count st + dup_count st + length evs)%nat.
Proof. exact recalc_float. Qed.
Print Assumptions C95_recalculate.

(** One step of a simulation: first the dynamics of all walkers, then, in every stride-th step, one round of birth-death moves *)
Theorem C95_step : forall fexp flog np_sum rng s, exp_ok fexp -> log_all_ok flog -> sums np_sum -> frng_ok rng -> sim_ok s ->
  forall k i st, Forall (healthy s k) (st_ps rng st) -> (2 <= length (st_ps rng st))%nat -> (Z.of_nat (length (st_ps rng st)) <= 10000)%Z ->
  (4 * Z.of_nat (S k) < 2 ^ 53)%Z -> (fs_recalc s = true -> never_zero rng) ->
  exists moved g st', f_ld_run fexp rng s (st_ps rng st) (st_ld rng st) = Ok (moved, g) /\ Forall (healthy s (S k)) moved /\
    f_step fexp flog np_sum rng s i st = Ok st' /\ st_ld rng st' = g /\
    ((fs_stride s | i)%Z -> f_birth_death fexp flog np_sum rng s moved (st_stats rng st) (st_bd rng st) = Ok (st_ps rng st', st_stats rng st', st_bd rng st')) /\
    (~ (fs_stride s | i)%Z -> st_ps rng st' = moved /\ st_stats rng st' = st_stats rng st /\ st_bd rng st' = st_bd rng st).
Proof. exact step_float. Qed.
Print Assumptions C95_step.

Example C95_case : exists fexp flog, exp_ok fexp /\ log_all_ok flog /\ sums left_sum /\ frng_ok (const_frng fhalf) /\ never_zero (const_frng fhalf) /\
  forall recalc, sim_ok (demo_fsim 5 recalc) /\ energies_below (demo_fsim 5 recalc) 200 /\
    Forall (healthy (demo_fsim 5 recalc) 0) (map (f_add_particle (demo_fsim 5 recalc)) [[fhalf]; [f_of_Z (-1)]; [fhalf]]).
Proof. exact events_case. Qed.
