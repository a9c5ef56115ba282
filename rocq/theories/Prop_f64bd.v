(** Densities and rates of the birth-death moves in float64 arithmetic, C93 *)
From Verif Require Import Model_f64bd Spec_f64bd Proof_f64u Proof_f64w Proof_f64x.
From Flocq Require Import Core.Raux.
Open Scope R_scope.

(** ** C93 *)
(** Every density is a finite, strictly positive float64 (so its logarithm is finite) and has a relative error of at most n * 2^-43. *)
Theorem C93_density : forall fexp np_sum, exp_ok fexp -> sums np_sum ->
  forall bw pos, Forall moderate bw -> (1 <= length bw <= 3)%nat -> Forall (coords_ok bw) pos -> pos <> [] -> (Z.of_nat (length pos) <= 10000)%Z ->
  exists d, f_density fexp np_sum bw pos = Ok d /\ length d = length pos /\
    forall i x, nth_error d i = Some x ->
      finite x /\ 0 < val x /\ Rabs (val x - exact_density bw pos i) <= INR (length pos) * / 2 ^ 43 * exact_density bw pos i /\
      bpow radix2 (-320) <= exact_density bw pos i <= bpow radix2 297.
Proof. exact density_all. Qed.
Print Assumptions C93_density.

(** The rates of all three variants are finite (no -inf, no nan) and differ from the exact rates by at most n * (2^-38 + M * 2^-48), if
    energies in units of kt and corrections are at most M. *)
Theorem C93_rates : forall fexp flog np_sum, exp_ok fexp -> log_all_ok flog -> sums np_sum ->
  forall bw pos, Forall moderate bw -> (1 <= length bw <= 3)%nat -> Forall (coords_ok bw) pos -> pos <> [] -> (Z.of_nat (length pos) <= 10000)%Z ->
  forall v kt energies corr M, moderate kt -> length energies = length pos -> length corr = length pos -> 0 <= M <= bpow radix2 300 ->
  Forall (fun e => finite e /\ Rabs (val e / val kt) <= M) energies -> Forall (bounded M) corr ->
  exists rates, f_betas fexp flog np_sum v kt bw pos energies corr = Ok rates /\ length rates = length pos /\
    forall i x, nth_error rates i = Some x ->
      finite x /\ Rabs (val x - exact_rate v kt bw pos energies corr i) <= INR (length pos) * (/ 2 ^ 38 + M * / 2 ^ 48).
Proof. exact rates_all. Qed.
Print Assumptions C93_rates.

Example C93_case : exists fexp flog np_sum, exp_ok fexp /\ log_all_ok flog /\ sums np_sum /\ Forall moderate ex_bw /\ (1 <= length ex_bw <= 3)%nat /\
  Forall (coords_ok ex_bw) ex_pos /\ ex_pos <> [] /\ (Z.of_nat (length ex_pos) <= 10000)%Z /\ moderate (f_of_Z 1) /\ 0 <= 3 <= bpow radix2 300 /\
  Forall (fun e => finite e /\ Rabs (val e / val (f_of_Z 1)) <= 3) (map f_of_Z [3; -1; 3]%Z) /\ Forall (bounded 3) (map f_of_Z [0; -2; 1]%Z).
Proof. exact rates_case. Qed.
