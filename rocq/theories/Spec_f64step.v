(** Vocabulary for single steps of the dynamics on float64 numbers *)
From Verif Require Export Model_f64od Spec_f64sim.
From Flocq Require Import Core.Raux.
Open Scope R_scope.

(** the point of the range next to q *)
Definition clamped (lo hi q : R) : R := Rmax lo (Rmin hi q).
(** ranges of at most this size, with the lower end first *)
Definition ranges_ok (ranges : list (f64 * f64)) : Prop :=
  Forall (fun r => bounded (bpow radix2 200) (fst r) /\ bounded (bpow radix2 200) (snd r) /\ val (fst r) <= val (snd r)) ranges.
(** the forces of a walker *)
Definition forces_ok (ranges : list (f64 * f64)) (forces : list f64) : Prop :=
  length forces = length ranges /\ Forall (bounded (bpow radix2 200)) forces.
