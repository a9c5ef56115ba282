(** Contract of numpy.random.Generator as far as the theorems use it *)
From Coq Require Import Reals List Permutation Lra Lia.
From Verif Require Import PyBase Model_dyn.
Import ListNotations.
Open Scope R_scope.

Record rng_ok (rng : rng_if) : Prop := {
  ok_normal : forall n g, length (fst (r_normal rng n g)) = n;
  ok_random_len : forall n g, length (fst (r_random rng n g)) = n;
  ok_random_range : forall n g, Forall (fun x => 0 <= x < 1) (fst (r_random rng n g));
  ok_shuffle : forall l g, Permutation l (fst (r_shuffle rng l g));
  ok_integers : forall n g, (0 < n)%nat -> (fst (r_integers rng n g) < n)%nat;
  ok_uniform : forall lo hi g, lo <= hi -> lo <= fst (r_uniform rng lo hi g) <= hi;
  ok_choice : forall n g, (0 < n)%nat -> (fst (r_choice rng n g) < n)%nat }.

(** a generator satisfying the contract, with a counter as state *)
Definition demo_rng : rng_if := {|
  rng_st := nat;
  r_default := fun s => Z.to_nat s;
  r_normal := fun n g => (repeat (INR g) n, S g);
  r_random := fun n g => (repeat (1/2) n, S g);
  r_shuffle := fun l g => (rev l, S g);
  r_integers := fun n g => (Nat.modulo g n, S g);
  r_uniform := fun lo hi g => (lo, S g);
  r_choice := fun n g => (Nat.modulo g n, S g) |}.

Lemma demo_rng_ok : rng_ok demo_rng.
Proof.
  constructor; cbn; intros.
  - apply repeat_length.
  - apply repeat_length.
  - apply Forall_forall. intros x Hx. apply repeat_spec in Hx. lra.
  - apply Permutation_rev.
  - apply Nat.mod_upper_bound. lia.
  - lra.
  - apply Nat.mod_upper_bound. lia.
Qed.

(** another one that always draws the smallest values *)
Definition zero_rng : rng_if := {|
  rng_st := unit;
  r_default := fun _ => tt;
  r_normal := fun n g => (repeat 0 n, g);
  r_random := fun n g => (repeat 0 n, g);
  r_shuffle := fun l g => (l, g);
  r_integers := fun n g => (0%nat, g);
  r_uniform := fun lo hi g => (lo, g);
  r_choice := fun n g => (0%nat, g) |}.

Lemma zero_rng_ok : rng_ok zero_rng.
Proof.
  constructor; cbn; intros.
  - apply repeat_length.
  - apply repeat_length.
  - apply Forall_forall. intros x Hx. apply repeat_spec in Hx. lra.
  - apply Permutation_refl.
  - assumption.
  - lra.
  - assumption.
Qed.
