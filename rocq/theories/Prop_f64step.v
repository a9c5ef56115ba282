(** Single steps of both Langevin dynamics in float64 arithmetic, C97 *)
From Verif Require Import Model_f64od Spec_f64step Proof_f64step2 Proof_f64step3.
From Flocq Require Import Core.Raux.
Open Scope R_scope.

(** ** C97 *)
(** One step of the Bussi-Parinello dynamics: in every dimension, with p the momentum and q the position of the exact step before the boundary
    condition, the new position is the point of the range next to q up to [err]; the momentum is that of the exact step up to [errm], reversed
    if q is outside.  (Within [err] of the boundary both are possible.) *)
Theorem C97_langevin : forall ranges force c1 c2 mass dt w n1 n2, ranges_ok ranges -> (forall p, in_box ranges p -> forces_ok ranges (force p)) ->
  finite c1 -> 0 <= val c1 <= 1 -> finite c2 -> 0 <= val c2 <= bpow radix2 120 -> finite mass -> bpow radix2 (-100) <= val mass ->
  finite dt -> 0 <= val dt <= bpow radix2 100 ->
  in_box ranges (fw_pos w) -> length (fw_mom w) = length ranges -> Forall (bounded (bpow radix2 400)) (fw_mom w) -> forces_ok ranges (fw_forces w) ->
  noise_for ranges n1 -> noise_for ranges n2 ->
  exists w', f_bp_update ranges force c1 c2 mass dt w n1 n2 = Ok w' /\ in_box ranges (fw_pos w') /\ fw_forces w' = force (fw_pos w') /\
    length (fw_mom w') = length ranges /\
  forall i r x m F a b, nth_error ranges i = Some r -> nth_error (fw_pos w) i = Some x -> nth_error (fw_mom w) i = Some m ->
    nth_error (fw_forces w) i = Some F -> nth_error n1 i = Some a -> nth_error n2 i = Some b ->
    exists x' m' F', nth_error (fw_pos w') i = Some x' /\ nth_error (fw_mom w') i = Some m' /\ nth_error (fw_forces w') i = Some F' /\
    let p := val c1 * val m + val c2 * val a + val F * val dt / 2 in
    let q := val x + p / val mass * val dt in
    let size := Rabs (val m) + val c2 * Rabs (val a) + Rabs (val F) * val dt in
    let err := / 2 ^ 49 * (Rabs (val x) + size / val mass * val dt) + bpow radix2 (-600) in
    let errm := / 2 ^ 48 * (size + Rabs (val F') * val dt + val c2 * Rabs (val b)) + bpow radix2 (-600) in
    Rabs (val x' - clamped (val (fst r)) (val (snd r)) q) <= err /\
    (val (fst r) + err <= q <= val (snd r) - err -> Rabs (val m' - (val c1 * (p + val F' * val dt / 2) + val c2 * val b)) <= errm) /\
    (q < val (fst r) - err \/ val (snd r) + err < q -> Rabs (val m' - (val c1 * (- p + val F' * val dt / 2) + val c2 * val b)) <= errm).
Proof. exact langevin_step. Qed.
Print Assumptions C97_langevin.

(** One step of the overdamped dynamics: x + dt F + sqrt(2 dt) n, moved into the range, up to rounding. *)
Theorem C97_overdamped : forall dt, finite dt -> bpow radix2 (-100) <= val dt <= bpow radix2 100 -> forall ranges force w noise,
  ranges_ok ranges -> in_box ranges (fw_pos w) -> length (fw_mom w) = length ranges -> forces_ok ranges (fw_forces w) -> noise_for ranges noise ->
  exists w', f_od_update ranges force (f_noise_factor dt) dt w noise = Ok w' /\ in_box ranges (fw_pos w') /\ fw_forces w' = force (fw_pos w') /\
    length (fw_mom w') = length ranges /\
  forall i r x F n, nth_error ranges i = Some r -> nth_error (fw_pos w) i = Some x -> nth_error (fw_forces w) i = Some F -> nth_error noise i = Some n ->
    exists x', nth_error (fw_pos w') i = Some x' /\
    Rabs (val x' - clamped (val (fst r)) (val (snd r)) (val x + (val dt * val F + sqrt (2 * val dt) * val n))) <=
      / 2 ^ 49 * (Rabs (val x) + (val dt * Rabs (val F) + sqrt (2 * val dt) * Rabs (val n))) + bpow radix2 (-600).
Proof. exact od_step. Qed.
Print Assumptions C97_overdamped.

(** Any number of overdamped steps: no exception, no nan or infinity, always inside the box, and the stored forces are those of the position. *)
Theorem C97_run : forall dt, finite dt -> bpow radix2 (-100) <= val dt <= bpow radix2 100 -> forall ranges force pos noises,
  ranges_ok ranges -> (forall p, in_box ranges p -> forces_ok ranges (force p)) -> in_box ranges pos -> Forall (noise_for ranges) noises ->
  exists w, f_overdamped ranges force dt pos noises = Ok w /\ in_box ranges (fw_pos w) /\ Forall finite (fw_pos w) /\ fw_forces w = force (fw_pos w).
Proof. exact od_run. Qed.
Print Assumptions C97_run.

(** the force -x between -3 and 3; a walker at 1/2 with momentum -1, c1 = 1/2, c2 = mass = 1, dt = 2^-7 *)
Example C97_case : let dt := fmake 1 (-7) in let w := mkFW [fhalf] [f_of_Z (-1)] [fopp fhalf] in
  ranges_ok step_ranges /\ (forall p, in_box step_ranges p -> forces_ok step_ranges (map fopp p)) /\
  finite fhalf /\ 0 <= val fhalf <= 1 /\ finite (f_of_Z 1) /\ 0 <= val (f_of_Z 1) <= bpow radix2 120 /\ bpow radix2 (-100) <= val (f_of_Z 1) /\
  finite dt /\ bpow radix2 (-100) <= val dt <= bpow radix2 100 /\
  in_box step_ranges (fw_pos w) /\ length (fw_mom w) = length step_ranges /\ Forall (bounded (bpow radix2 400)) (fw_mom w) /\
  forces_ok step_ranges (fw_forces w) /\ noise_for step_ranges [fhalf].
Proof. exact step_case. Qed.
