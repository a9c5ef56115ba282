(** Notions for the dynamics *)
From Verif Require Import PyBase Model_dyn Model_bd.
Open Scope R_scope.

(** A history of calls on the walker list: adding and removing walkers, Langevin steps, and
    birth-death moves with any events (dup, kill). *)
Inductive op :=
| OpAdd (pos : vec) (mass : R) (partnum : Z) (overwrite : bool)
| OpRemove (partnum : Z)
| OpLd
| OpBd (events : list (nat * nat)).

Definition do_op (rng : rng_if) (ld : ldpar) (s : list particle * rng_st rng) (o : op)
  : res (list particle * rng_st rng) :=
  let (ps, g) := s in
  match o with
  | OpAdd pos mass partnum overwrite => do ps' <- add_particle ld ps pos mass partnum overwrite; Ok (ps', g)
  | OpRemove partnum => do ps' <- remove_particle ps partnum; Ok (ps', g)
  | OpLd => ld_run rng ld ps g
  | OpBd events => do ps' <- perform_moves ps events; Ok (ps', g)
  end.
Definition do_ops (rng : rng_if) (ld : ldpar) (ops : list op) (s : list particle * rng_st rng) :=
  foldM (do_op rng ld) ops s.

(** stored energy and forces are those at the position *)
Definition consistent (pot : potential) (p : particle) : Prop :=
  p_energy p = pot_energy pot (p_pos p) /\ p_forces p = pot_force pot (p_pos p).

(** all coordinates inside the ranges *)
Definition inside (ranges : list (R * R)) (pos : vec) : Prop :=
  Forall2 (fun r x => fst r <= x <= snd r) ranges pos.

Definition proper_ranges (n_dim : nat) (ranges : list (R * R)) : Prop :=
  length ranges = n_dim /\ Forall (fun r => fst r <= snd r) ranges.

(** n_dim coordinates everywhere *)
Definition right_size (n_dim : nat) (p : particle) : Prop :=
  length (p_pos p) = n_dim /\ length (p_mom p) = n_dim /\ length (p_forces p) = n_dim.
Definition force_size (pot : potential) : Prop :=
  forall x, length x = pot_ndim pot -> length (pot_force pot x) = pot_ndim pot.

(** n consecutive Langevin steps *)
Fixpoint ld_steps (rng : rng_if) (ld : ldpar) (n : nat) (ps : list particle) (g : rng_st rng)
  : res (list particle * rng_st rng) :=
  match n with
  | O => Ok (ps, g)
  | S n' => do (ps', g') <- ld_run rng ld ps g; ld_steps rng ld n' ps' g'
  end.

Definition reverse_momentum (p : particle) : particle :=
  mkP (p_pos p) (map Ropp (p_mom p)) (p_mass p) (p_energy p) (p_forces p) (p_c2 p).

(** friction 0: no thermostat noise *)
Definition frictionless_walker (pot : potential) (p : particle) : Prop :=
  right_size (pot_ndim pot) p /\ consistent pot p /\ p_mass p <> 0 /\ p_c2 p = 0.

(** The documented update of the d-th coordinates in the Bussi-Parrinello scheme without
    boundary condition: thermostat, half kick, drift, half kick, thermostat.
    x, m: old position and momentum; f, f': force at the old and new position;
    n1, n2: normal random numbers *)
Definition bp_position (c1 c2 dt mass x m f n1 : R) : R :=
  x + (c1 * m + c2 * n1 + f * dt / 2) / mass * dt.
Definition bp_momentum (c1 c2 dt m f f' n1 n2 : R) : R :=
  c1 * (c1 * m + c2 * n1 + f * dt / 2 + f' * dt / 2) + c2 * n2.

(** walkers only move or are copied *)
Definition dynamics (o : op) : Prop := match o with OpLd | OpBd _ => True | _ => False end.

(** for the examples: harmonic potential in the box (-1,1) x (-2,2) *)
Definition demo_pot (bc : option bcond) : potential :=
  mkPot 2 [(-1, 1); (-2, 2)] (fun x => fold_right Rplus 0 (map (fun a => a * a) x)) (map (fun a => -2 * a)) bc.
Definition demo_ld (k : ldkind) (bc : option bcond) : ldpar := mkLD k (demo_pot bc) (1/10) 1.
