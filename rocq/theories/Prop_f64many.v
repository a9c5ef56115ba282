(** Densities and rates for any number of walkers in float64 arithmetic, C105 *)
From Verif Require Import Spec_f64many Proof_f64x Proof_f64many2.
From Flocq Require Import Core.Raux.
Open Scope R_scope.

(** ** C105 *)
(** For 1 to 2^30 walkers, with either of the two methods of the code, every density is a finite, strictly positive float64 with a relative
    error of at most n * 2^-43. *)
Theorem C105_density : forall fexp fpow np_sum, exp_ok fexp -> pow_ok fpow -> sums np_sum ->
  forall bw pos, Forall moderate bw -> (1 <= length bw <= 3)%nat -> Forall (coords_ok bw) pos -> pos <> [] -> (Z.of_nat (length pos) <= 1073741824)%Z ->
  exists d, f_walker_density fexp fpow np_sum bw pos = Ok d /\ length d = length pos /\
    forall i x, nth_error d i = Some x ->
      finite x /\ 0 < val x /\ Rabs (val x - exact_density bw pos i) <= INR (length pos) * / 2 ^ 43 * exact_density bw pos i /\
      bpow radix2 (-336) <= exact_density bw pos i <= bpow radix2 297.
Proof. exact any_density. Qed.
Print Assumptions C105_density.

(** The rates of all three variants are finite and differ from the exact rates by at most n * (2^-38 + M * 2^-48), if energies in units
    of kt and corrections are at most M. *)
Theorem C105_rates : forall fexp flog fpow np_sum, exp_ok fexp -> log_all_ok flog -> pow_ok fpow -> sums np_sum ->
  forall bw pos, Forall moderate bw -> (1 <= length bw <= 3)%nat -> Forall (coords_ok bw) pos -> pos <> [] -> (Z.of_nat (length pos) <= 1073741824)%Z ->
  forall v kt energies corr M, moderate kt -> length energies = length pos -> length corr = length pos -> 0 <= M <= bpow radix2 300 ->
  Forall (fun e => finite e /\ Rabs (val e / val kt) <= M) energies -> Forall (bounded M) corr ->
  exists rates, f_betas_any fexp flog fpow np_sum v kt bw pos energies corr = Ok rates /\ length rates = length pos /\
    forall i x, nth_error rates i = Some x ->
      finite x /\ Rabs (val x - exact_rate v kt bw pos energies corr i) <= INR (length pos) * (/ 2 ^ 38 + M * / 2 ^ 48).
Proof. exact any_rates. Qed.
Print Assumptions C105_rates.

(** Both methods give the same densities up to rounding, wherever both can be used. *)
Theorem C105_methods_agree : forall fexp fpow np_sum, exp_ok fexp -> pow_ok fpow -> sums np_sum ->
  forall bw pos, Forall moderate bw -> (1 <= length bw <= 3)%nat -> Forall (coords_ok bw) pos -> pos <> [] -> (Z.of_nat (length pos) <= 10000)%Z ->
  exists d, f_density fexp np_sum bw pos = Ok d /\
    forall i x y, nth_error d i = Some x -> nth_error (f_density_manual fexp fpow np_sum bw pos) i = Some y ->
      Rabs (val x - val y) <= INR (length pos) * / 2 ^ 42 * exact_density bw pos i.
Proof. exact branches_agree. Qed.
Print Assumptions C105_methods_agree.

(** 10002 walkers in two dimensions *)
Example C105_case : exists fexp flog fpow np_sum, exp_ok fexp /\ log_all_ok flog /\ pow_ok fpow /\ sums np_sum /\ Forall moderate ex_bw /\ (1 <= length ex_bw <= 3)%nat /\
  Forall (coords_ok ex_bw) ex_many /\ ex_many <> [] /\ (10000 < Z.of_nat (length ex_many) <= 1073741824)%Z /\ moderate (f_of_Z 1) /\ 0 <= 3 <= bpow radix2 300 /\
  (let energies := map f_of_Z (3 :: repeat (-1) (Z.to_nat 10001))%Z in
   length energies = length ex_many /\ Forall (fun e => finite e /\ Rabs (val e / val (f_of_Z 1)) <= 3) energies /\ Forall (bounded 3) energies).
Proof. exact many_case. Qed.
