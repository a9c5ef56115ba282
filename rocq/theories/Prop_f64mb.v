(** The Mueller-Brown potential in float64 arithmetic, C96 *)
From Verif Require Import Model_f64mb Spec_f64mb Proof_f64mb3.
From Flocq Require Import Core.Raux.
Open Scope R_scope.

(** ** C96 *)
(** Everywhere in the box the energy is a number (no nan or infinity) within 2^-40 of the exact value, relative to the sum of the absolute values of
    the four terms plus 1.  A1 .. A4 are the amplitudes stored in the global array. *)
Theorem C96_energy : forall fexp fsq, exp_both_ok fexp -> square_ok fsq -> forall A1 A2 A3 A4 x y,
  bounded (bpow radix2 100) A1 -> bounded (bpow radix2 100) A2 -> bounded (bpow radix2 100) A3 -> bounded (bpow radix2 100) A4 ->
  in_box fmb_ranges [x; y] -> let e := f_mb_energy fexp fsq [A1; A2; A3; A4] [x; y] in
  finite e /\ Rabs (val e - (mb_sum (val A1) (val A2) (val A3) (val A4) (val x) (val y) + 30.33319242243656)) <=
    / 2 ^ 40 * (mb_sum (Rabs (val A1)) (Rabs (val A2)) (Rabs (val A3)) (Rabs (val A4)) (val x) (val y) + 1).
Proof. exact mb_energy_float. Qed.
Print Assumptions C96_energy.

(** The forces are minus the partial derivatives D0, D1 of the exact energy up to 2^-34 relative to the same sum. *)
Theorem C96_force : forall fexp fsq, exp_both_ok fexp -> square_ok fsq -> forall A1 A2 A3 A4 x y,
  bounded (bpow radix2 100) A1 -> bounded (bpow radix2 100) A2 -> bounded (bpow radix2 100) A3 -> bounded (bpow radix2 100) A4 ->
  in_box fmb_ranges [x; y] -> exists f0 f1 D0 D1, f_mb_force fexp fsq [A1; A2; A3; A4] [x; y] = [f0; f1] /\ finite f0 /\ finite f1 /\
  derivable_pt_lim (fun t => mb_sum (val A1) (val A2) (val A3) (val A4) t (val y)) (val x) D0 /\
  derivable_pt_lim (fun t => mb_sum (val A1) (val A2) (val A3) (val A4) (val x) t) (val y) D1 /\
  let W := mb_sum (Rabs (val A1)) (Rabs (val A2)) (Rabs (val A3)) (Rabs (val A4)) (val x) (val y) in
  Rabs (val f0 - - D0) <= / 2 ^ 34 * W + bpow radix2 (-1000) /\ Rabs (val f1 - - D1) <= / 2 ^ 34 * W + bpow radix2 (-1000).
Proof. exact mb_force_float. Qed.
Print Assumptions C96_force.

(** evaluate returns the same float64 numbers as energy and force. *)
Theorem C96_evaluate : forall fexp fsq A pos, f_mb_evaluate fexp fsq A pos = (f_mb_energy fexp fsq A pos, f_mb_force fexp fsq A pos).
Proof. exact mb_evaluate_float. Qed.
Print Assumptions C96_evaluate.

(** After the first constructor call with a scaling factor f the energy is f times the unscaled sum plus the shift, up to rounding. *)
Theorem C96_scaled : forall fexp fsq, exp_both_ok fexp -> square_ok fsq -> forall f x y,
  finite f -> bpow radix2 (-100) <= Rabs (val f) <= bpow radix2 90 -> in_box fmb_ranges [x; y] ->
  let e := f_mb_energy fexp fsq (f_mb_init fmb_A0 (Some f)) [x; y] in
  Forall (bounded (bpow radix2 100)) (f_mb_init fmb_A0 (Some f)) /\ finite e /\
  Rabs (val e - (val f * mb_sum (-200) (-100) (-175) 15 (val x) (val y) + 30.33319242243656)) <=
    / 2 ^ 39 * (Rabs (val f) * mb_sum 200 100 175 15 (val x) (val y) + 1).
Proof. exact mb_scaled_float. Qed.
Print Assumptions C96_scaled.

(** Simulations in this potential are among those of C94 and C95: they stay finite and inside the box. *)
Theorem C96_run : forall fexp fsq, exp_both_ok fexp -> square_ok fsq -> forall A1 A2 A3 A4 s,
  bounded (bpow radix2 100) A1 -> bounded (bpow radix2 100) A2 -> bounded (bpow radix2 100) A3 -> bounded (bpow radix2 100) A4 ->
  fs_ranges s = fmb_ranges -> fs_force s = f_mb_force fexp fsq [A1; A2; A3; A4] -> fs_energy s = f_mb_energy fexp fsq [A1; A2; A3; A4] ->
  moderate (fs_dt s) -> finite (fs_friction s) /\ 0 <= val (fs_friction s) -> moderate (fs_kt s) -> moderate (fs_mass s) ->
  (1 <= fs_stride s <= 2 ^ 50)%Z -> length (fs_bw s) = 2%nat /\ Forall moderate (fs_bw s) -> moderate (fs_rate s) ->
  (forall pos, Forall (in_box fmb_ranges) pos -> length (fs_corr s pos) = length pos /\ Forall (bounded (bpow radix2 200)) (fs_corr s pos)) ->
  sim_ok s.
Proof. exact mb_sim_float. Qed.
Print Assumptions C96_run.

(** functions as the theorems ask for exist; the amplitudes of the program; a point of the box; the factor 1/8; a simulation with 2^-7 as time step *)
Example C96_case : exists fexp fsq, exp_ok fexp /\ exp_both_ok fexp /\ square_ok fsq /\ Forall (bounded (bpow radix2 100)) fmb_A0 /\
  in_box fmb_ranges [fmake (-1) (-1); fmake 3 (-1)] /\ bpow radix2 (-100) <= Rabs (val (fmake 1 (-3))) <= bpow radix2 90 /\ sim_ok (mb_fsim fexp).
Proof. exact mb_case. Qed.
