(** Specification of the particle-distribution file (C04) *)
From Verif Require Import PyBase Model_dyn Model_rec Model_pdist Spec_times Spec_box.
Open Scope R_scope.

(** bounds of a state: a number or infinite; nothing is compared with nan *)
Definition at_least (b : xreal) (x : R) : Prop :=
  match b with Fin r => r <= x | MInf => True | _ => False end.
Definition at_most (b : xreal) (x : R) : Prop :=
  match b with Fin r => x <= r | PInf => True | _ => False end.

(** p is in the state: every coordinate between its minimum and maximum *)
Definition in_state (st : list (xreal * xreal)) (p : list R) : Prop :=
  length p = length st /\ forall d, (d < length p)%nat ->
    at_least (fst (nth d st (NaN, NaN))) (nth d p 0) /\ at_most (snd (nth d st (NaN, NaN))) (nth d p 0).

(** row of step k: the step and for every state the number of walkers in its box *)
Definition pdist_row_spec (states : list (list (xreal * xreal))) (parts : list particle) (k : Z)
    (row : list Z) : Prop :=
  exists cs, row = k :: map Z.of_nat cs /\
    Forall2 (fun box c => counts (fun w => in_state box (p_pos w)) parts c) states cs.

(** run(1), ..., run(n), final_run(n); [hist k] are the walkers at step k *)
Definition pdist_simulation (n_dim : nat) (states : list (list (xreal * xreal)))
    (hist : Z -> list particle) (n : Z) (r0 : recorder (list Z)) : res (recorder (list Z)) :=
  do r1 <- foldM (fun r k => pdist_run n_dim (hist k) states r k) (zrange 1 (n + 1)) r0;
  pdist_final_run n_dim (hist n) states r1 n.
