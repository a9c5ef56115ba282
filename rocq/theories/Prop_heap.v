(** C22: the walkers are independent objects *)
From Verif Require Import PyBase Model_dyn Model_bd Model_heap Spec_rng Spec_ld Spec_heap Proof_heap.
Open Scope R_scope.

(** After any history of added and removed walkers, Langevin steps and birth-death moves the
    program with references has the same walkers, the same state of the random number generator
    and the same exceptions as if every walker were a plain value.  No two slots share an object
    or an array, and the arrays that the caller passed to add_particle are untouched. *)
Theorem C22_independent_objects :
  forall rng ld user ops g, Forall (passes_own_arrays user) ops ->
  match do_ops rng ld (map (by_value user) ops) ([], g) with
  | Ok (walkers, g') => exists ps h, run_hops rng ld user ops g = Ok (ps, h, g') /\
      Forall2 (shows h) ps walkers /\ nothing_shared user h ps /\ firstn (length user) (h_arr h) = user
  | Err e => run_hops rng ld user ops g = Err e
  end.
Proof. exact walkers_independent. Qed.
Print Assumptions C22_independent_objects.

(** two walkers from the same array of the caller, a step, the first one copied onto the second,
    another step *)
Example C22_case : forall k, exists walkers g,
  do_ops demo_rng (demo_ld k None)
    (map (by_value [[1; 0]]) [HAdd 0 1 (-1) false; HAdd 0 3 0 false; HLd; HBd [(0, 1)%nat]; HLd]) ([], 7%nat) = Ok (walkers, g) /\
  Forall (passes_own_arrays [[1; 0]]) [HAdd 0 1 (-1) false; HAdd 0 3 0 false; HLd; HBd [(0, 1)%nat]; HLd] /\
  length walkers = 2%nat.
Proof.
  intro k.
  assert (H : Forall (passes_own_arrays [[1; 0]]) [HAdd 0 1 (-1) false; HAdd 0 3 0 false; HLd; HBd [(0, 1)%nat]; HLd])
    by (repeat constructor).
  destruct k; eexists _, _; (split; [reflexivity|]); (split; [exact H|reflexivity]).
Qed.
