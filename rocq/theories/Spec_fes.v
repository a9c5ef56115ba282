(** Specification of free energies (C03, C10, C11) *)
From Verif Require Import PyBase Model_xr Model_rec Model_deltaf Spec_times.
Open Scope R_scope.

(** number of samples in the bins selected by the mask *)
Fixpoint count_in (data : list nat) (mask : list bool) : nat :=
  match data, mask with
  | c :: cs, b :: bs => ((if b then c else 0) + count_in cs bs)%nat
  | _, _ => 0%nat
  end.

(** free energy difference of a state with N samples to a reference state with N1 samples *)
Definition free_energy_difference (kt : R) (N N1 : nat) : xreal :=
  match N, N1 with
  | O, O => NaN
  | O, S _ => PInf
  | S _, O => MInf
  | S _, S _ => Fin (- kt * ln (INR N / INR N1))
  end.

(** run(1), ..., run(n), final_run(n) of the delta-f action; [fes k] is the FES at step k and
    [fes (n + 1)] the FES after final_run(n) of the fes action *)
Definition delta_f_simulation (fes : Z -> list xreal) (kt dt : R) (masks : list (list bool))
    (n : Z) (r0 : recorder (list xreal)) : res (recorder (list xreal)) :=
  do r1 <- foldM (fun r k => delta_f_run (fes k) kt dt masks r k) (zrange 1 (n + 1)) r0;
  delta_f_final_run (fes (n + 1)%Z) kt dt masks r1 n.

(** the line of step k *)
Definition delta_f_line (fes : Z -> list xreal) (kt dt : R) (masks : list (list bool)) (k : Z)
    (row : list xreal) : Prop :=
  exists d, calculate_delta_f (fes k) kt masks = Ok d /\ row = Fin (IZR k * dt) :: d.
(** the line of the time n with the final FES *)
Definition delta_f_last_line (fes : Z -> list xreal) (kt dt : R) (masks : list (list bool)) (n : Z)
    (row : list xreal) : Prop :=
  exists d, calculate_delta_f (fes (n + 1)%Z) kt masks = Ok d /\ row = Fin (IZR n * dt) :: d.
