(** Specification for the mean effect of a step of the mode that recalculates (C103) *)
From Coq Require Import Reals List.
From Verif Require Import PyBase Model_dyn Model_bd Spec_grid Spec_bd Spec_rng Spec_well Spec_drift.
Open Scope R_scope.

(** number drawn by integers(n - 1) for the first event: random(n) and the shuffling of all walkers come before *)
Definition first_partner (rng : rng_if) (n : nat) (g : rng_st rng) : nat :=
  fst (r_integers rng (n - 1) (snd (r_shuffle rng (seq 0 n) (snd (r_random rng n g))))).
(** no set of copies of these walkers has a rate larger than bmax *)
Definition rates_bounded (gd : griddata_t R) (par : bdpar) (ps : list particle) (bmax : R) : Prop :=
  forall ws beta, (forall p, In p ws -> In p ps) -> length ws = length ps -> calc_betas gd par ws = Ok beta ->
  Forall (fun b => Rabs b <= bmax) beta.
(** for the example: two walkers at the same place with energies 0 and 2, time between birth-death steps t *)
Definition two_par (t : R) : bdpar := mkBD 1 t [1] 1 1 true VOrig None None false.
Definition two_walkers : list particle := [mkP [0] [0] 1 0 [] 0; mkP [0] [0] 1 2 [] 0].
