(** Notions for the birth-death properties, independent of the model *)
From Coq Require Import Reals List.
From Verif Require Import Spec_grid.
Import ListNotations.
Open Scope R_scope.

(** replace entry k *)
Fixpoint replace_nth {A} (l : list A) (k : nat) (v : A) : list A :=
  match l, k with
  | [], _ => []
  | _ :: t, O => v :: t
  | x :: t, S k' => x :: replace_nth t k' v
  end.

(** execute events (dup, kill) one after another: walker kill becomes a copy of walker dup *)
Fixpoint execute {A} (ws : list A) (events : list (nat * nat)) : list A :=
  match events with
  | [] => ws
  | (dup, kill) :: rest =>
      execute (match nth_error ws dup with Some w => replace_nth ws kill w | None => ws end) rest
  end.

(** events in bulk mode for walkers in the given order; [killed] are the walkers killed so far *)
Inductive bulk_events (n : nat) (beta : list R) : list nat -> list nat -> list (nat * nat) -> Prop :=
| be_none killed : bulk_events n beta [] killed []
| be_skip i order killed evs : In i killed ->
    bulk_events n beta order killed evs -> bulk_events n beta (i :: order) killed evs
| be_kill i j order killed evs : ~ In i killed -> 0 < nth i beta 0 -> (j < n)%nat -> j <> i ->
    bulk_events n beta order (i :: killed) evs -> bulk_events n beta (i :: order) killed ((j, i) :: evs)
| be_dup i j order killed evs : ~ In i killed -> nth i beta 0 <= 0 -> (j < n)%nat -> j <> i ->
    bulk_events n beta order (j :: killed) evs -> bulk_events n beta (i :: order) killed ((i, j) :: evs).

(** acceptance probability *)
Definition accept_prob (dt rate beta : R) : R := 1 - exp (- (Rabs beta * dt * rate)).

(** Gaussian kernel with bandwidths bw at distance p - q: product of the normal densities *)
Fixpoint gauss_kernel (bw p q : list R) : R :=
  match bw, p, q with
  | b :: bw', x :: p', y :: q' =>
      / (sqrt (2 * PI) * b) * exp (- ((x - y) ^ 2 / (2 * b ^ 2))) * gauss_kernel bw' p' q'
  | _, _, _ => 1
  end.
Fixpoint gauss_height (bw : list R) : R :=
  match bw with [] => 1 | b :: bw' => / (sqrt (2 * PI) * b) * gauss_height bw' end.

Definition average (l : list R) : R := total l / INR (length l).

(** all bandwidths positive, one for each of the n_dim dimensions of the positions *)
Definition walkers_ok (n_dim : nat) (bw : list R) (positions : list (list R)) : Prop :=
  length bw = n_dim /\ Forall (fun b => 0 < b) bw /\
  Forall (fun p => length p = n_dim) positions.
