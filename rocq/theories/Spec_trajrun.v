(** Call histories of a TrajectoryAction for property C01 *)
From Verif Require Import PyBase Model_dyn Model_traj.

(** [m] manual calls of write(k) *)
Definition manual_writes (m : nat) (k : Z) (t : traj) : res traj :=
  foldM (fun t _ => traj_write t k) (repeat tt m) t.

(** One simulation step: run(k) with the walkers [hist k], followed by any number
    [manual k] of calls of write(k). *)
Definition traj_step (dt : R) (hist : Z -> list particle) (manual : Z -> nat)
    (t : traj) (k : Z) : res traj :=
  do t1 <- traj_run dt (hist k) t k; manual_writes (manual k) k t1.

(** Manual writes before the first step, steps 1..n with manual writes after each of them,
    then final_run(n) (main.py:113-121). *)
Definition traj_simulation (dt : R) (hist : Z -> list particle) (manual : Z -> nat)
    (n : Z) (t0 : traj) : res traj :=
  do t1 <- manual_writes (manual 0%Z) 0 t0;
  do t2 <- foldM (traj_step dt hist manual) (zrange 1 (n + 1)) t1;
  traj_final_run t2 n.
