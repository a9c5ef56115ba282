(** Specification of the mean effect of a birth-death step (C102) *)
From Coq Require Import Reals List.
From Verif Require Import PyBase Model_dyn Model_bd Spec_grid Spec_bd Spec_rng Spec_well.
Open Scope R_scope.

(** 1 if the random number x leads to an event of probability t, otherwise 0 *)
Definition accepted (x t : R) : R := if Rle_dec x t then 1 else 0.
Definition equals (i j : nat) : R := if Nat.eqb i j then 1 else 0.

(** [rand w] are the random numbers of outcome w: every number leads to an event with its probability, any two of them independently. *)
Definition uniform_numbers {W} (avg : (W -> R) -> R) (prob : list R) (rand : W -> list R) : Prop :=
  (forall i, (i < length prob)%nat -> avg (fun w => accepted (nth i (rand w) 0) (nth i prob 0)) = nth i prob 0) /\
  (forall i j, (i < length prob)%nat -> (j < length prob)%nat -> i <> j ->
     avg (fun w => accepted (nth i (rand w) 0) (nth i prob 0) * accepted (nth j (rand w) 0) (nth j prob 0)) = nth i prob 0 * nth j prob 0).

(** [partner i w]: number drawn by integers(n - 1) for an event of walker i alone; all numbers are equally likely, whether or not the event takes place. *)
Definition fair_partners {W} (avg : (W -> R) -> R) (prob : list R) (rand : W -> list R) (partner : nat -> W -> nat) : Prop :=
  forall i k, (i < length prob)%nat -> (k < length prob - 1)%nat ->
  avg (fun w => accepted (nth i (rand w) 0) (nth i prob 0) * equals (partner i w) k) = nth i prob 0 / INR (length prob - 1).

(** the numbers the generator returns: random(n), and integers(n - 1) after shuffling the single event *)
Definition numbers (rng : rng_if) (n : nat) (g : rng_st rng) : list R := fst (r_random rng n g).
Definition partner_number (rng : rng_if) (n i : nat) (g : rng_st rng) : nat :=
  fst (r_integers rng (n - 1) (snd (r_shuffle rng [i] (snd (r_random rng n g))))).

(** sum of a quantity f over the walkers *)
Definition sum_over {A} (f : A -> R) (l : list A) : R := total (map f l).
(** sum of beta_i (f_i - mean of f) over the walkers *)
Definition rate_moment {A} (f : A -> R) (beta : list R) (l : list A) : R :=
  total (map (fun bx => fst bx * (f (snd bx) - average (map f l))) (combine beta l)).

(** number of walkers in a region and sum of beta_i - mean of beta over these *)
Definition inhabitants {A} (region : A -> bool) (l : list A) : R := sum_over (fun x => if region x then 1 else 0) l.
Definition excess_rate {A} (region : A -> bool) (beta : list R) (l : list A) : R :=
  total (map (fun bx => if region (snd bx) then fst bx - average beta else 0) (combine beta l)).

(** for the example: independent events with given probabilities and a partner; weighted average over all cases *)
Fixpoint cases (prob : list R) (f : list bool -> R) : R :=
  match prob with [] => f [] | p :: ps => p * cases ps (fun w => f (true :: w)) + (1 - p) * cases ps (fun w => f (false :: w)) end.
Definition cases_avg (prob : list R) (f : list bool * nat -> R) : R :=
  total (map (fun k => cases prob (fun w => f (w, k))) (seq 0 (length prob - 1))) / INR (length prob - 1).
(** a generator that returns the numbers in its state, brought into the allowed ranges *)
Definition clip (x : R) : R := if Rle_dec 0 x then if Rlt_dec x 1 then x else 0 else 0.
Definition list_rng : rng_if := {| rng_st := (list R * nat)%type; r_default := fun _ => ([], 0%nat);
  r_normal := fun n s => (repeat 0 n, s);
  r_random := fun n s => (map (fun i => clip (nth i (fst s) 0)) (seq 0 n), s);
  r_shuffle := fun l s => (l, s); r_integers := fun n s => (Nat.min (snd s) (n - 1), s);
  r_uniform := fun a _ s => (a, s); r_choice := fun n s => (Nat.min (snd s) (n - 1), s) |}.
(** numbers that lead to the given events *)
Definition case_state (prob : list R) (w : list bool * nat) : rng_st list_rng :=
  (map (fun i => if nth i (fst w) false then 0 else (nth i prob 0 + 1) / 2) (seq 0 (length prob)), snd w).
