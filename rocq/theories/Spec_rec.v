(** Call history of a recording action: run(1), ..., run(n), final_run(n) (main.py:113-121).
    [rows k] is the row computed at step k. *)
From Verif Require Import PyBase Model_rec Spec_times.

Definition rec_simulation {A} (rows : Z -> A) (n : Z) (r0 : recorder A) : res (recorder A) :=
  do r1 <- foldM (fun r k => rec_run (Ok (rows k)) r k) (zrange 1 (n + 1)) r0;
  rec_final_run (Ok (rows n)) r1 n.

(** what the file should contain: one row per multiple of the stride *)
Definition rec_expected {A} (rows : Z -> A) (s n : Z) : list A := map rows (times 0 n s).
