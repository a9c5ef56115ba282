(** Specification of the motion without friction: Newton's equation (C106) *)
From Coq Require Import Reals.
From Verif Require Import PyBase Model_dyn Spec_ld Spec_well.
Open Scope R_scope.

(** A motion is given by the position q d t and the velocity v d t along every axis d at every time t. *)
Definition place (n : nat) (q : nat -> R -> R) (t : R) : vec := map (fun d => q d t) (seq 0 n).
Definition acceleration (pot : potential) (mass : R) (q : nat -> R -> R) (d : nat) (t : R) : R :=
  nth d (pot_force pot (place (pot_ndim pot) q t)) 0 / mass.

(** Newton's equation of motion up to the time T: q' = v and mass v' = force *)
Definition newton (pot : potential) (mass T : R) (q v : nat -> R -> R) : Prop :=
  forall d t, (d < pot_ndim pot)%nat -> 0 <= t <= T ->
  derivable_pt_lim (q d) t (v d t) /\ derivable_pt_lim (v d) t (acceleration pot mass q d t).

(** Along the motion the acceleration changes at most at the rate J, and this rate at most at the rate K. *)
Definition smooth (pot : potential) (mass T : R) (q : nat -> R -> R) (J K : R) : Prop :=
  exists j k : nat -> R -> R, forall d t, (d < pot_ndim pot)%nat -> 0 <= t <= T ->
  derivable_pt_lim (acceleration pot mass q d) t (j d t) /\ Rabs (j d t) <= J /\
  derivable_pt_lim (j d) t (k d t) /\ Rabs (k d t) <= K.

(** Not farther than delta from the motion the force differs from the one on it by at most L times the distance. *)
Definition tame (pot : potential) (T : R) (q : nat -> R -> R) (delta L : R) : Prop :=
  forall t y r, 0 <= t <= T -> length y = pot_ndim pot -> r <= delta ->
  (forall d, (d < pot_ndim pot)%nat -> Rabs (nth d y 0 - q d t) <= r) ->
  forall d, (d < pot_ndim pot)%nat -> Rabs (nth d (pot_force pot y) 0 - nth d (pot_force pot (place (pot_ndim pot) q t)) 0) <= L * r.

(** the walker starts like the motion *)
Definition starts (n_dim : nat) (mass : R) (q v : nat -> R -> R) (p : particle) : Prop :=
  forall d, (d < n_dim)%nat -> nth d (p_pos p) 0 = q d 0 /\ nth d (p_mom p) 0 = mass * v d 0.

(** position and velocity of the walker agree with the motion at time t up to e *)
Definition agrees (n_dim : nat) (mass e : R) (q v : nat -> R -> R) (t : R) (p : particle) : Prop :=
  forall d, (d < n_dim)%nat -> Rabs (nth d (p_pos p) 0 - q d t) <= e /\ Rabs (nth d (p_mom p) 0 / mass - v d t) <= e.

(** With a sufficiently small time step, every simulation of a walker that starts like the motion, with any random numbers
    and any temperature, agrees with it up to eps until the time T. *)
Definition close_runs (pot : potential) (mass T eps : R) (q v : nat -> R -> R) : Prop :=
  exists h0, 0 < h0 /\ forall rng ld p g walker n,
    sized rng -> ld_kind ld = BussiParinello 0 -> ld_pot ld = pot -> 0 < ld_dt ld <= h0 ->
    set_up ld 0 mass p -> starts (pot_ndim pot) mass q v p -> follows rng ld p g walker -> INR n * ld_dt ld <= T ->
    agrees (pot_ndim pot) mass eps q v (INR n * ld_dt ld) (walker n).

(** factor of dt^2 in the error up to the time T; it does not depend on the time step *)
Definition error_factor (mass T L J K : R) : R :=
  let l := L / mass in
  let A := 1 + l + l / 2 * (1 + l / 2) in
  (J / 6 * (1 + l / 2) + K / 12) * ((exp (A * T) - 1) / A).

(** for the example: the harmonic well in two dimensions *)
Definition round_well : potential := mkPot 2 [(-1, 1); (-1, 1)] (fun x => (nth 0 x 0 * nth 0 x 0 + nth 1 x 0 * nth 1 x 0) / 2) (map Ropp) None.
Definition circle (d : nat) (t : R) : R := match d with O => cos t | _ => sin t end.
Definition circle_v (d : nat) (t : R) : R := match d with O => - sin t | _ => cos t end.
Definition circle_start : particle := mkP [1; 0] [0; 1] 1 (1 / 2) [-1; 0] 0.
