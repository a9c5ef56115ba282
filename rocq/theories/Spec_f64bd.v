(** Vocabulary for the densities and rates of the birth-death moves in float64 arithmetic *)
From Verif Require Export Model_f64bd Spec_f64 Spec_f64ld Spec_bd.
From Flocq Require Import Core.Raux.
Open Scope R_scope.

(** a positive number within 30 orders of magnitude of 1 *)
Definition moderate (b : f64) : Prop := finite b /\ bpow radix2 (-100) <= val b <= bpow radix2 100.
(** a position with one coordinate per bandwidth, none larger than 2^200 *)
Definition coords_ok (bw p : list f64) : Prop := length p = length bw /\ Forall (bounded (bpow radix2 200)) p.
(** np.log: finite with a small relative error for positive numbers *)
Definition log_all_ok (flog : f64 -> f64) : Prop :=
  forall x, finite x -> 0 < val x -> finite (flog x) /\ Rabs (val (flog x) - ln (val x)) <= / 2 ^ 50 * Rabs (ln (val x)).

(** the density at walker i without rounding: the average of the Gaussians at all walkers *)
Definition exact_density (bw : list f64) (pos : list (list f64)) (i : nat) : R :=
  average (map (gauss_kernel (map val bw) (map val (nth i pos []))) (map (map val) pos)).
(** value i minus the average of all n values *)
Definition centered (n : nat) (a : nat -> R) (i : nat) : R := a i - average (map a (seq 0 n)).
(** the birth-death rate of walker i without rounding, for the three variants *)
Definition exact_rate (v : variant) (kt : f64) (bw : list f64) (pos : list (list f64)) (energies corr : list f64) (i : nat) : R :=
  let n := length pos in
  let log_density k := ln (exact_density bw pos k) in
  let energy k := val (nth k energies fzero) / val kt in
  let correction k := val (nth k corr fzero) in
  match v with
  | VOrig => centered n (fun k => log_density k + energy k) i
  | VAdd => centered n (fun k => log_density k + energy k) i + correction i
  | VMult => centered n (fun k => log_density k + correction k) i
  end.
