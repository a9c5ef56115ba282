(** Properties of the float64 arithmetic, C73 to C78 *)
From Verif Require Import Model_f64 Spec_f64 Proof_f64c Proof_f64d Proof_f64e Proof_f64f Proof_f64g Proof_f64h.
From Flocq Require Import Core.Core.
Open Scope R_scope.

(** ** C73 *)
(** The full property fails: with the fractions 7 and 15 and 22 walkers the second position gets 14. *)
Theorem C73_refuted : exists fractions counts,
  sums left_sum /\ f_fraction_counts left_sum fractions 22 = Ok counts /\
  map (fun f => IZR 22 * (val f / vsum fractions)) fractions = [7; 15] /\ counts = [8; 14]%Z.
Proof. exact counts_refuted. Qed.
Print Assumptions C73_refuted.

(** Whatever the order of the additions in np.sum: all counts are non-negative, their sum is the number of walkers, and from the
    second position on they differ by at most one from the exact ones. *)
Theorem C73_counts_partial : forall np_sum fractions number, sums np_sum ->
  Forall (fun f => finite f /\ 0 <= val f) fractions -> 0 < vsum fractions < bpow radix2 1023 ->
  (0 < number)%Z -> (number * Z.of_nat (2 * length fractions + 4) <= 2 ^ 50)%Z ->
  exists counts, f_fraction_counts np_sum fractions number = Ok counts /\
    length counts = length fractions /\ Forall (fun c => (0 <= c)%Z) counts /\ fold_right Z.add 0%Z counts = number /\
    forall i f c, nth_error fractions (S i) = Some f -> nth_error counts (S i) = Some c ->
      (Z.abs (c - Int_part (IZR number * (val f / vsum fractions))) <= 1)%Z.
Proof. exact counts_partial. Qed.
Print Assumptions C73_counts_partial.

(** They are the exact ones unless number * fraction is an integer up to rounding. *)
Theorem C73_exact : forall np_sum fractions number counts i f c, sums np_sum ->
  Forall (fun f => finite f /\ 0 <= val f) fractions -> 0 < vsum fractions < bpow radix2 1023 ->
  (0 < number)%Z -> (number * Z.of_nat (2 * length fractions + 4) <= 2 ^ 50)%Z ->
  f_fraction_counts np_sum fractions number = Ok counts ->
  nth_error fractions (S i) = Some f -> nth_error counts (S i) = Some c ->
  (forall k, IZR number * INR (2 * length fractions + 4) * / 2 ^ 52 + / 2 ^ 100 < Rabs (IZR number * (val f / vsum fractions) - IZR k)) ->
  c = Int_part (IZR number * (val f / vsum fractions)).
Proof. exact counts_exact. Qed.
Print Assumptions C73_exact.

(** fractions 1 and 3, 10 walkers: 3 and 7 *)
Example C73_case : let fractions := [f_of_Z 1; f_of_Z 3] in sums left_sum /\
  Forall (fun f => finite f /\ 0 <= val f) fractions /\ 0 < vsum fractions < bpow radix2 1023 /\
  (10 * Z.of_nat (2 * length fractions + 4) <= 2 ^ 50)%Z /\
  f_fraction_counts left_sum fractions 10 = Ok [3; 7]%Z /\
  forall k, IZR 10 * INR (2 * length fractions + 4) * / 2 ^ 52 + / 2 ^ 100 < Rabs (IZR 10 * (val (f_of_Z 3) / vsum fractions) - IZR k).
Proof. exact counts_case. Qed.

(** ** C74 *)
(** Every coordinate that is a number (or infinite) is inside afterwards; no rounding takes place: one inside is unchanged, one
    outside is moved to the boundary and its momentum reversed. *)
Theorem C74_reflective : forall ranges pos mom,
  length ranges = length pos -> length mom = length pos -> Forall range_ok ranges ->
  exists pos' mom', f_bc_reflective ranges pos mom = Ok (pos', mom') /\ length pos' = length pos /\ length mom' = length pos /\
  forall i r x m, nth_error ranges i = Some r -> nth_error pos i = Some x -> nth_error mom i = Some m ->
    exists x' m', nth_error pos' i = Some x' /\ nth_error mom' i = Some m' /\
      (not_nan x -> inside r x') /\
      (is_nan x = true -> x' = x /\ m' = m) /\
      (inside r x -> x' = x /\ m' = m) /\
      (flt x (fst r) = true -> x' = fst r /\ m' = fopp m) /\
      (flt (snd r) x = true -> x' = snd r /\ m' = fopp m).
Proof. exact reflective_main. Qed.
Print Assumptions C74_reflective.

(** After any number of steps with any forces, random numbers and constants: inside, or nan *)
Theorem C74_run : forall ranges force c1 c2 mass dt noises w w',
  Forall range_ok ranges -> noises <> [] -> f_bp_run ranges force c1 c2 mass dt w noises = Ok w' ->
  forall i x, nth_error (fw_pos w') i = Some x -> exists r, nth_error ranges i = Some r /\ (inside r x \/ is_nan x = true).
Proof. exact bp_run_inside_any. Qed.
Print Assumptions C74_run.

(** A position with more coordinates than the potential has ranges is an error. *)
Theorem C74_short : forall ranges pos mom, (length ranges < length pos \/ length mom < length pos)%nat -> f_bc_reflective ranges pos mom = Err IndexError.
Proof. exact short_reflective. Qed.
Print Assumptions C74_short.

(** a walker that leaves the range [-1, 1] at the right and is put on the boundary, in two steps *)
Example C74_case : let ranges := [(f_of_Z (-1), f_of_Z 1)] in
  Forall range_ok ranges /\
  f_bc_reflective ranges [f_of_Z 3] [f_of_Z 2] = Ok ([f_of_Z 1], [fopp (f_of_Z 2)]) /\
  match f_bp_run ranges (fun _ => [fzero]) (f_of_Z 1) fzero (f_of_Z 1) (f_of_Z 1) (mkFW [fzero] [f_of_Z 2] [fzero])
    [([fzero], [fzero]); ([fzero], [fzero])] with Ok w => map (feq (f_of_Z (-1))) (fw_pos w) | Err _ => [] end = [true].
Proof. exact reflective_case. Qed.

(** ** C75 *)
(** The full property fails: range (-0.5, 1.7), a coordinate just below -0.5 ends above 1.7. *)
Theorem C75_refuted : exists lo hi x x', range_ok (lo, hi) /\ finite x /\ flt x lo = true /\
  f_bc_periodic [(lo, hi)] [x] [fzero] = Ok ([x'], [fzero]) /\ flt hi x' = true.
Proof. exact periodic_refuted. Qed.
Print Assumptions C75_refuted.

(** Within one period the new coordinate is the shifted one up to rounding; a coordinate inside is unchanged. *)
Theorem C75_periodic_partial : forall ranges pos mom i lo hi x,
  length ranges = length pos -> length mom = length pos ->
  nth_error ranges i = Some (lo, hi) -> nth_error pos i = Some x ->
  finite lo -> finite hi -> finite x -> val lo <= val hi -> Rabs (val lo) + Rabs (val hi) <= bpow radix2 1022 ->
  let period := val hi - val lo in
  val lo - period <= val x <= val hi + period ->
  exists pos' x', f_bc_periodic ranges pos mom = Ok (pos', mom) /\ nth_error pos' i = Some x' /\ finite x' /\
    (val lo <= val x <= val hi -> x' = x) /\
    (val x < val lo -> Rabs (val x' - (val x + period)) <= (Rabs (val lo) + Rabs (val hi)) * / 2 ^ 51) /\
    (val hi < val x -> Rabs (val x' - (val x - period)) <= (Rabs (val lo) + Rabs (val hi)) * / 2 ^ 51).
Proof. exact periodic_partial. Qed.
Print Assumptions C75_periodic_partial.

(** A position with more coordinates than the potential has ranges is an error. *)
Theorem C75_short : forall ranges pos mom, (length ranges < length pos \/ length mom < length pos)%nat -> f_bc_periodic ranges pos mom = Err IndexError.
Proof. exact short_periodic. Qed.
Print Assumptions C75_short.

Example C75_case : let lo := f_of_Z (-1) in let hi := f_of_Z 3 in let x := f_of_Z 5 in
  finite lo /\ finite hi /\ finite x /\ val lo <= val hi /\ Rabs (val lo) + Rabs (val hi) <= bpow radix2 1022 /\
  val lo - (val hi - val lo) <= val x <= val hi + (val hi - val lo) /\ val hi < val x /\
  match f_bc_periodic [(lo, hi)] [x] [fzero] with Ok (p, _) => map (feq (f_of_Z 1)) p | Err _ => [] end = [true].
Proof. exact periodic_case. Qed.

(** ** C76 *)
(** +inf exactly in the empty bins, everywhere else finite, non-negative and accurate, the minimum exactly zero *)
Theorem C76_fes : forall flog kt data cmax, log_ok flog -> finite kt -> 0 < val kt <= bpow radix2 1000 ->
  Forall (fun c => (0 <= c <= 2 ^ 53)%Z) data ->
  In cmax data -> (0 < cmax)%Z -> (forall c, In c data -> (c <= cmax)%Z) ->
  exists fes, f_fes flog kt data = Ok fes /\ length fes = length data /\
    (forall i c x, nth_error data i = Some c -> nth_error fes i = Some x ->
      (c = 0%Z -> x = finf) /\
      ((0 < c)%Z -> finite x /\ 0 <= val x /\
        Rabs (val x - val kt * (ln (IZR cmax) - ln (IZR c))) <= val kt * / 2 ^ 40 + / 2 ^ 200)) /\
    (exists i x c, nth_error fes i = Some x /\ nth_error data i = Some c /\ (0 < c)%Z /\ val x = 0).
Proof. exact fes_all. Qed.
Print Assumptions C76_fes.

(** nothing sampled: +inf everywhere, no nan *)
Theorem C76_empty : forall flog kt data, data <> [] -> Forall (fun c => c = 0%Z) data ->
  f_fes flog kt data = Ok (map (fun _ => finf) data).
Proof. exact fes_empty. Qed.
Print Assumptions C76_empty.
Theorem C76_no_bins : forall flog kt, f_fes flog kt [] = Err ValueError.
Proof. exact fes_no_bins. Qed.
Print Assumptions C76_no_bins.

Example C76_case : exists flog, log_ok flog /\ finite (f_of_Z 2) /\ 0 < val (f_of_Z 2) <= bpow radix2 1000 /\
  Forall (fun c => (0 <= c <= 2 ^ 53)%Z) [3; 0; 5]%Z /\ In 5%Z [3; 0; 5]%Z /\ forall c, In c [3; 0; 5]%Z -> (c <= 5)%Z.
Proof. exact fes_case. Qed.

(** ** C77 *)
(** The time of step k is k * dt up to one rounding, and times of different steps are different and in order *)
Theorem C77_time : forall dt k, finite dt -> bpow radix2 (-1022) <= val dt ->
  (1 <= k <= 2 ^ 53)%Z -> IZR k * val dt < bpow radix2 1023 ->
  finite (f_time dt k) /\ Rabs (val (f_time dt k) - IZR k * val dt) <= / 2 ^ 53 * (IZR k * val dt).
Proof. exact time_all. Qed.
Print Assumptions C77_time.

Theorem C77_increasing : forall dt k k', finite dt -> bpow radix2 (-1022) <= val dt ->
  (1 <= k < k')%Z -> (k' <= 2 ^ 52)%Z -> IZR k' * val dt < bpow radix2 1023 ->
  flt (f_time dt k) (f_time dt k') = true.
Proof. exact time_increasing_all. Qed.
Print Assumptions C77_increasing.

(** dt = 0.005 (the nearest float64), steps until 10^12 *)
Example C77_case : let dt := fmake 5764607523034235 (-60) in
  finite dt /\ bpow radix2 (-1022) <= val dt /\ (1 <= 999999999999 < 1000000000000)%Z /\ (1000000000000 <= 2 ^ 52)%Z /\
  IZR 1000000000000 * val dt < bpow radix2 1023.
Proof. exact time_case. Qed.

(** ** C78 *)
(** The acceptance probability is a probability, zero for beta = 0 *)
Theorem C78_probability : forall fexp dt rate beta, exp_ok fexp ->
  finite dt -> 0 < val dt -> finite rate -> 0 < val rate -> finite beta ->
  let p := f_event_prob fexp dt rate beta in
  finite p /\ 0 <= val p <= 1 /\ (val beta = 0 -> val p = 0).
Proof. exact prob_all. Qed.
Print Assumptions C78_probability.

(** Its distance from the exact one *)
Theorem C78_accuracy : forall fexp dt rate beta, exp_ok fexp -> finite dt -> 0 < val dt -> finite rate -> finite beta ->
  bpow radix2 (-100) <= val rate <= bpow radix2 100 ->
  let x := Rabs (val beta) * val dt * val rate in
  x <= bpow radix2 900 ->
  Rabs (val (f_event_prob fexp dt rate beta) - (1 - exp (- x))) <= / 2 ^ 48.
Proof. exact prob_accuracy. Qed.
Print Assumptions C78_accuracy.

(** rng.random() is k / 2^53 with k uniform in 0 .. 2^53 - 1: which of them accept the event *)
Theorem C78_accepted : forall fexp dt rate beta k, exp_ok fexp ->
  finite dt -> 0 < val dt -> finite rate -> 0 < val rate -> finite beta -> (0 <= k < 2 ^ 53)%Z ->
  (f_accepted fexp dt rate beta (fmake k (-53)) = true <-> IZR k <= 2 ^ 53 * val (f_event_prob fexp dt rate beta)).
Proof. exact accepted_count. Qed.
Print Assumptions C78_accepted.

(** An event with positive probability is not always possible: for very small beta and time step the computed probability is 0
    and only the random number 0 accepts. *)
Theorem C78_refuted : forall fexp, exp_ok fexp -> exists dt rate beta,
  finite dt /\ 0 < val dt /\ val rate = 1 /\ finite beta /\ 0 < val beta /\
  0 < 1 - exp (- (Rabs (val beta) * val dt * val rate)) /\
  val (f_event_prob fexp dt rate beta) = 0 /\
  forall k, (0 < k < 2 ^ 53)%Z -> f_accepted fexp dt rate beta (fmake k (-53)) = false.
Proof. exact prob_refuted. Qed.
Print Assumptions C78_refuted.

Example C78_case : exists fexp, exp_ok fexp /\ let dt := fmake 1 (-4) in let rate := f_of_Z 1 in let beta := f_of_Z (-3) in
  finite dt /\ 0 < val dt /\ finite rate /\ 0 < val rate /\ finite beta /\ bpow radix2 (-100) <= val rate <= bpow radix2 100 /\
  0 < Rabs (val beta) * val dt * val rate <= bpow radix2 900.
Proof. exact prob_case. Qed.
