(** Free energies from samples, property C99 *)
From Coq Require Import Lra Lia.
From Verif Require Import PyBase Model_xr Model_fes Model_deltaf Model_dyn Model_potgrid Spec_fes Spec_consist Proof_consist.
Open Scope R_scope.

(** If the counts follow the Boltzmann distribution up to a relative error d, every value of the
    FES is finite and within kt ln ((1 + d) / (1 - d)) of the reference surface of the potential. *)
Theorem C99_surface :
  forall d kt energy bins counts junk,
  bins <> [] -> 0 < kt -> 0 <= d < 1 -> samples_within d kt (map energy bins) counts ->
  exists fes r, calculate_fes counts kt true junk = Ok fes /\ calculate_reference energy bins true = Ok r /\
    length fes = length bins /\ length r = length bins /\
    forall i, (i < length bins)%nat -> exists f, nth i fes NaN = Fin f /\ Rabs (f - nth i r 0) <= error_bound kt d.
Proof. exact surface_close. Qed.
Print Assumptions C99_surface.

(** The same for the free energy differences between states that have a bin. *)
Theorem C99_delta_f :
  forall d kt energies counts junk m1 ms,
  energies <> [] -> 0 < kt -> 0 <= d < 1 -> samples_within d kt energies counts ->
  Forall (some_bin (length energies)) (m1 :: ms) ->
  exists fes ds, calculate_fes counts kt true junk = Ok fes /\ calculate_delta_f fes kt (m1 :: ms) = Ok (map Fin ds) /\ length ds = length ms /\
    forall j, (j < length ms)%nat ->
      Rabs (nth j ds 0 - - kt * ln (weight_in kt energies (nth j ms []) / weight_in kt energies m1)) <= error_bound kt d.
Proof. exact delta_f_close. Qed.
Print Assumptions C99_delta_f.

(** exact samples give the exact free energies *)
Theorem C99_exact : forall kt, error_bound kt 0 = 0.
Proof. exact error_bound_0. Qed.
Print Assumptions C99_exact.

(** and the error is as small as one likes if the samples are good enough *)
Theorem C99_consistent :
  forall kt eps, 0 < kt -> 0 < eps -> exists d0, 0 < d0 < 1 /\ forall d, 0 <= d <= d0 -> error_bound kt d <= eps.
Proof. exact error_small. Qed.
Print Assumptions C99_consistent.

(** 21 and 10 samples at energies 0 and 2 ln 2 with kt = 2 *)
Example C99_case : samples_within (1/10) 2 [0; 2 * ln 2] [21; 10]%nat /\ Forall (some_bin 2) [[true; false]; [true; true]].
Proof.
  split.
  - assert (A : weight 2 0 = 1) by (unfold weight; replace (- 0 / 2) with 0 by field; apply exp_0).
    assert (B : weight 2 (2 * ln 2) = / 2).
    { unfold weight. replace (- (2 * ln 2) / 2) with (- ln 2) by field. rewrite exp_Ropp, exp_ln; lra. }
    split; [reflexivity|]. exists 30. split; [lra|].
    intros [|[|i]] Hi; cbn [nth map fold_right]; [| |cbn in Hi; lia]; cbv zeta; rewrite A, B.
    + replace (INR 21) with 21 by (cbn; lra). apply Rabs_le. lra.
    + replace (INR 10) with 10 by (cbn; lra). apply Rabs_le. lra.
  - repeat constructor.
Qed.
