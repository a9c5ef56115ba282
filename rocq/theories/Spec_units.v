(** The same system in other units, with another origin or mirrored (C98) *)
From Verif Require Import PyBase Model_xr Model_dyn Model_bd Model_fes Model_setup Model_main Spec_whole.
Open Scope R_scope.

(** What the unit of length, energy and time become in the new units, the energy of the old zero, and for every coordinate axis its sign (-1: mirrored)
    and the position of the old origin *)
Record units := mkUnits { u_len : R; u_en : R; u_time : R; u_zero : R; u_axes : list (R * R) }.
Definition units_ok (u : units) (n : nat) : Prop :=
  0 < u_len u /\ 0 < u_en u /\ 0 < u_time u /\ length (u_axes u) = n /\ Forall (fun a => fst a = 1 \/ fst a = -1) (u_axes u).
Definition signs (u : units) : list R := map fst (u_axes u).

(** something for every axis *)
Definition per_axis {A} (f : R * R -> A -> A) (axes : list (R * R)) (l : list A) : list A := map (fun ax => f (fst ax) (snd ax)) (combine axes l).

Definition new_pos (u : units) : vec -> vec := per_axis (fun a x => u_len u * (fst a * x) + snd a) (u_axes u).
Definition new_mom (u : units) : vec -> vec := per_axis (fun a p => u_en u * u_time u / u_len u * (fst a * p)) (u_axes u).
Definition new_force (u : units) : vec -> vec := per_axis (fun a f => u_en u / u_len u * (fst a * f)) (u_axes u).
Definition new_mass (u : units) (m : R) : R := u_en u * u_time u ^ 2 / u_len u ^ 2 * m.
Definition new_energy (u : units) (e : R) : R := u_en u * e + u_zero u.
(** the interval between the images of both ends *)
Definition new_ranges (u : units) : list (R * R) -> list (R * R) :=
  per_axis (fun a r => let x := u_len u * (fst a * fst r) + snd a in let y := u_len u * (fst a * snd r) + snd a in (Rmin x y, Rmax x y)) (u_axes u).
(** the constant c2 of the thermostat has the unit of a momentum *)
Definition new_walker (u : units) (p : particle) : particle :=
  mkP (new_pos u (p_pos p)) (new_mom u (p_mom p)) (new_mass u (p_mass p)) (new_energy u (p_energy p)) (new_force u (p_forces p))
      (u_en u * u_time u / u_len u * p_c2 p).

(** the same potential in the new units *)
Definition same_potential (u : units) (pot pot' : potential) : Prop :=
  pot_ndim pot' = pot_ndim pot /\ pot_bc pot' = pot_bc pot /\
  (pot_bc pot = None \/ length (pot_ranges pot) = pot_ndim pot /\ Forall (fun r => fst r <= snd r) (pot_ranges pot) /\
                        pot_ranges pot' = new_ranges u (pot_ranges pot)) /\
  forall x, length x = pot_ndim pot ->
    length (pot_force pot x) = pot_ndim pot /\ pot_energy pot' (new_pos u x) = new_energy u (pot_energy pot x) /\
    pot_force pot' (new_pos u x) = new_force u (pot_force pot x).

(** The same dynamics.  The overdamped dynamics has a fixed diffusion constant and temperature, which determine the units of time and energy. *)
Definition same_dynamics (u : units) (ld ld' : ldpar) : Prop :=
  same_potential u (ld_pot ld) (ld_pot ld') /\ ld_dt ld' = u_time u * ld_dt ld /\ ld_kt ld' = u_en u * ld_kt ld /\
  match ld_kind ld, ld_kind ld' with
  | BussiParinello friction, BussiParinello friction' => friction' = friction / u_time u
  | Overdamped, Overdamped => u_time u = u_len u ^ 2 /\ u_en u = 1
  | _, _ => False
  end.

(** The same birth-death moves; a correction of the rates has to be the same at corresponding positions. *)
Definition same_moves (u : units) (n : nat) (gd : griddata_t R) (par par' : bdpar) : Prop :=
  bd_stride par' = bd_stride par /\ bd_dt par' = u_time u * bd_dt par /\ bd_rate par' = bd_rate par / u_time u /\
  length (bd_bw par) = n /\ Forall (fun b => 0 < b) (bd_bw par) /\ bd_bw par' = map (Rmult (u_len u)) (bd_bw par) /\
  bd_kt par <> 0 /\ bd_kt par' = u_en u * bd_kt par /\
  bd_recalc par' = bd_recalc par /\ bd_variant par' = bd_variant par /\ bd_stats_stride par' = bd_stats_stride par /\ bd_to_file par' = bd_to_file par /\
  (bd_variant par = VOrig \/ forall pos, Forall (fun x => length x = n) pos -> interpolated gd par' (map (new_pos u) pos) = interpolated gd par pos).

(** The generator whose normal distributed numbers have the given signs.  (The normal distribution is symmetric, so it is as good as the other one.) *)
Definition mirrored (s : list R) (rng : rng_if) : rng_if := {|
  rng_st := rng_st rng; r_default := r_default rng;
  r_normal := fun n g => (vmap2 Rmult s (fst (r_normal rng n g)), snd (r_normal rng n g));
  r_random := r_random rng; r_shuffle := r_shuffle rng; r_integers := r_integers rng; r_uniform := r_uniform rng; r_choice := r_choice rng |}.
Definition mirrored_env (s : list R) (e : env) : env :=
  mkEnv (mirrored s (e_rng e)) (e_os_ld e) (e_os_init e) (e_os_bd e) (e_gd e) (e_nan e) (e_coeff_file e) (e_junk_times e) (e_junk_pos e) (e_junk_mom e)
        (e_junk_fes e) (e_junk_df e) (e_junk_df1 e) (e_junk_pd e) (e_junk_pd1 e).

(** outcome with a function applied to the result *)
Definition on_ok {A B} (f : A -> B) (r : res A) : res B := match r with Ok a => Ok (f a) | Err x => Err x end.

(** the moving part of a simulation, and one with other walkers and parameters of the birth-death action *)
Definition bd_params {e : env} (d : dyn e) : option bdpar := match snd d with Some (par, _, _, _) => Some par | None => None end.
(** generator and the numbers of the birth-death action: its generator, its counters and its reports *)
Definition bd_state {e : env} (d : dyn e) := match snd d with Some (_, g, st, out) => Some (g, st, out) | None => None end.

(** coefficients of a polynomial in the new units *)
Definition new_coeffs (u : units) (c : arr R) : arr R :=
  mkArr (a_shape c) (map (fun idx => u_en u * a_at 0 c idx * fold_right Rmult 1 (map (fun si => (fst si / u_len u) ^ snd si) (combine (signs u) idx))) (indices (a_shape c))).

(** [D k] is the moving part after k time steps, starting with d (see C56) *)
Definition evolution (e : env) (ld : ldpar) (d : dyn e) (n : Z) (D : Z -> dyn e) : Prop :=
  D 0%Z = d /\ forall k, (1 <= k <= n)%Z -> dyn_step e ld k (D (k - 1)%Z) (D k).
(** the birth-death actions at the start: none, or the same moves with the same generator, counters and reports *)
Definition same_action {S} (u : units) (n : nat) (gd : griddata_t R) (b b' : option (bdpar * S * stats * list report)) : Prop :=
  match b, b' with
  | None, None => True
  | Some (par, g, st, out), Some (par', g', st', out') => same_moves u n gd par par' /\ g' = g /\ st' = st /\ out' = out
  | _, _ => False
  end.
