(** Model of bdld/particle.py, bdld/potential/potential.py (boundary conditions),
    bdld/actions/bussi_parinello_ld.py and bdld/actions/overdamped_ld.py.
    Floating point numbers are modelled by the reals; numpy arrays of shape (n_dim,) by
    lists of reals.  Random number generators are given by an interface [rng_if] whose
    numpy contract is stated in Spec_rng.v. *)
From Coq Require Export Reals.
From Verif Require Export PyBase.
Open Scope R_scope.

Notation vec := (list R).

(** elementwise numpy binary operation on arrays of equal length.  (All uses are on
    arrays of length n_dim; numpy would raise for different lengths > 1.) *)
Fixpoint vmap2 (f : R -> R -> R) (a b : vec) : vec :=
  match a, b with
  | x :: a', y :: b' => f x y :: vmap2 f a' b'
  | _, _ => []
  end.
Definition vadd : vec -> vec -> vec := vmap2 Rplus.
Definition vscale (c : R) (v : vec) : vec := map (fun x => c * x) v.

(** numpy.random.Generator: state and the methods used by the code.
    [r_default seed] is default_rng(seed) with an integer seed. *)
Record rng_if := {
  rng_st : Type;
  r_default : Z -> rng_st;                              (* default_rng(seed) *)
  r_normal : nat -> rng_st -> vec * rng_st;             (* standard_normal(n) *)
  r_random : nat -> rng_st -> list R * rng_st;          (* random(n) *)
  r_shuffle : list nat -> rng_st -> list nat * rng_st;  (* shuffle(array) *)
  r_integers : nat -> rng_st -> nat * rng_st;           (* integers(n), n > 0 *)
  r_uniform : R -> R -> rng_st -> R * rng_st;           (* uniform(low, high) *)
  r_choice : nat -> rng_st -> nat * rng_st              (* choice: index of the chosen element *)
}.

(** default_rng(seed) with an optional seed: without seed the generator is initialised
    from operating system entropy, here the oracle argument [os]. *)
Definition default_rng (rng : rng_if) (os : rng_st rng) (seed : option Z) : rng_st rng :=
  match seed with Some s => r_default rng s | None => os end.

(** bdld/particle.py:7-46, bdld/actions/bussi_parinello_ld.py:19-32 (BpldParticle) and
    bdld/actions/overdamped_ld.py:16-27 (LDParticle, has no c2; modelled as c2 = 0).
    [forces] is np.empty(0) and energy 0 until add_particle evaluates the potential. *)
Record particle := mkP {
  p_pos : vec; p_mom : vec; p_mass : R;
  p_energy : R; p_forces : vec; p_c2 : R }.

(** bdld/particle.py:15-46 Particle.__init__ and init_momentum *)
Definition particle_init (pos : vec) (mom : option vec) (mass : R) : res particle :=
  let m := match mom with
           | None => repeat 0 (length pos)                      (* 36-37 *)
           | Some m => m                                         (* 39-41 *)
           end in
  if Nat.eqb (length pos) (length m)                             (* 42-46 *)
  then Ok (mkP pos m mass 0 [] 0)
  else Err ValueError.

(** bdld/potential/potential.py:10-14 *)
Inductive bcond := Reflective | Periodic.

(** bdld/potential/potential.py:17-31: what the dynamics uses of a potential.
    [pot_energy]/[pot_force] are given by the derived classes (Model_pot.v). *)
Record potential := mkPot {
  pot_ndim : nat;
  pot_ranges : list (R * R);
  pot_energy : vec -> R;
  pot_force : vec -> vec;
  pot_bc : option bcond }.

(** bdld/potential/potential.py:33-39 *)
Definition evaluate (pot : potential) (pos : vec) : R * vec :=
  (pot_energy pot pos, pot_force pot pos).

(** bdld/potential/potential.py:140-160.  [self.ranges[i]] raises IndexError if there are
    fewer ranges than coordinates. *)
Fixpoint bc_reflective (rs : list (R * R)) (pos mom : vec) : res (vec * vec) :=
  match pos with
  | [] => Ok ([], mom)
  | x :: xs =>
    match rs with
    | [] => Err IndexError
    | (lo, hi) :: rs' =>
      match mom with
      | [] => Err IndexError
      | m :: ms =>
        if Rlt_dec x lo then
          do (p, q) <- bc_reflective rs' xs ms; Ok (lo :: p, - m :: q)
        else if Rlt_dec hi x then
          do (p, q) <- bc_reflective rs' xs ms; Ok (hi :: p, - m :: q)
        else
          do (p, q) <- bc_reflective rs' xs ms; Ok (x :: p, m :: q)
      end
    end
  end.

(** bdld/potential/potential.py:162-179 *)
Fixpoint bc_periodic (rs : list (R * R)) (pos mom : vec) : res (vec * vec) :=
  match pos with
  | [] => Ok ([], mom)
  | x :: xs =>
    match rs with
    | [] => Err IndexError
    | (lo, hi) :: rs' =>
      match mom with
      | [] => Err IndexError
      | m :: ms =>
        do (p, q) <- bc_periodic rs' xs ms;
        if Rlt_dec x lo then Ok ((x + (hi - lo)) :: p, m :: q)
        else if Rlt_dec hi x then Ok ((x - (hi - lo)) :: p, m :: q)
        else Ok (x :: p, m :: q)
      end
    end
  end.

(** bdld/potential/potential.py:128-138 *)
Definition apply_boundary_condition (pot : potential) (pos mom : vec) : res (vec * vec) :=
  match pot_bc pot with
  | None => Ok (pos, mom)
  | Some Reflective => bc_reflective (pot_ranges pot) pos mom
  | Some Periodic => bc_periodic (pot_ranges pot) pos mom
  end.

(** bdld/actions/bussi_parinello_ld.py:48-70 and overdamped_ld.py:44-61: constant attributes *)
Inductive ldkind :=
| BussiParinello (friction : R)
| Overdamped.

Record ldpar := mkLD { ld_kind : ldkind; ld_pot : potential; ld_dt : R; ld_kt : R }.

(** bussi_parinello_ld.py:69 *)
Definition ld_c1 (friction dt : R) : R := exp (- (1/2) * friction * dt).
(** bussi_parinello_ld.py:124 *)
Definition ld_c2 (c1 mass kt : R) : R := sqrt ((1 - c1 * c1) * mass * kt).
(** overdamped_ld.py:60 *)
Definition ld_noise_factor (dt : R) : R := sqrt (2 * dt).

(** bussi_parinello_ld.py:87-99, body of the loop for one particle, with the two random
    vectors drawn in it *)
Definition bp_update (pot : potential) (c1 dt : R) (p : particle) (noise1 noise2 : vec)
  : res particle :=
  let mom := vadd (vscale c1 (p_mom p)) (vscale (p_c2 p) noise1) in          (* 89 *)
  let mom := vadd mom (map (fun f => 1/2 * f * dt) (p_forces p)) in          (* 91 *)
  let pos := vadd (p_pos p) (map (fun m => m / p_mass p * dt) mom) in        (* 92 *)
  do (pos, mom) <- apply_boundary_condition pot pos mom;                     (* 94 *)
  let (energy, forces) := evaluate pot pos in                                (* 96 *)
  let mom := vadd mom (map (fun f => 1/2 * f * dt) forces) in                (* 97 *)
  let mom := vadd (vscale c1 mom) (vscale (p_c2 p) noise2) in                (* 99 *)
  Ok (mkP pos mom (p_mass p) energy forces (p_c2 p)).

(** overdamped_ld.py:76-81, body of the loop for one particle *)
Definition od_update (pot : potential) (nf dt : R) (p : particle) (noise : vec)
  : res particle :=
  let pos := vadd (p_pos p)
                  (vadd (vscale dt (p_forces p)) (vscale nf noise)) in       (* 77-79 *)
  do (pos, mom) <- apply_boundary_condition pot pos (p_mom p);               (* 80 *)
  let (energy, forces) := evaluate pot pos in                                (* 81 *)
  Ok (mkP pos mom (p_mass p) energy forces (p_c2 p)).

(** one particle update drawing its random numbers from the generator.
    Bussi-Parinello draws twice (lines 89 and 99), overdamped once (77). *)
Definition ld_update (rng : rng_if) (ld : ldpar) (p : particle) (g : rng_st rng)
  : res (particle * rng_st rng) :=
  match ld_kind ld with
  | BussiParinello friction =>
      let (n1, g1) := r_normal rng (pot_ndim (ld_pot ld)) g in
      let (n2, g2) := r_normal rng (pot_ndim (ld_pot ld)) g1 in
      do p' <- bp_update (ld_pot ld) (ld_c1 friction (ld_dt ld)) (ld_dt ld) p n1 n2;
      Ok (p', g2)
  | Overdamped =>
      let (n1, g1) := r_normal rng (pot_ndim (ld_pot ld)) g in
      do p' <- od_update (ld_pot ld) (ld_noise_factor (ld_dt ld)) (ld_dt ld) p n1;
      Ok (p', g1)
  end.

(** bussi_parinello_ld.py:83-99 and overdamped_ld.py:72-81: [run], all particles in order *)
Fixpoint ld_run (rng : rng_if) (ld : ldpar) (ps : list particle) (g : rng_st rng)
  : res (list particle * rng_st rng) :=
  match ps with
  | [] => Ok ([], g)
  | p :: ps' =>
      do (p', g1) <- ld_update rng ld p g;
      do (ps'', g2) <- ld_run rng ld ps' g1;
      Ok (p' :: ps'', g2)
  end.

(** python list.insert(i, x) *)
Definition py_insert {A} (l : list A) (i : Z) (x : A) : list A :=
  let k := slice_bound (length l) i in firstn k l ++ x :: skipn k l.

(** python del l[i] *)
Definition py_del {A} (l : list A) (i : Z) : res (list A) :=
  match py_pos (length l) i with
  | Some k => Ok (firstn k l ++ skipn (S k) l)
  | None => Err IndexError
  end.

(** new particle as set up in add_particle:
    bussi_parinello_ld.py:116-124, overdamped_ld.py:98-105 *)
Definition new_particle (ld : ldpar) (pos : vec) (mass : R) : res particle :=
  if negb (Nat.eqb (length pos) (pot_ndim (ld_pot ld))) then Err ValueError
  else
    do p <- particle_init pos None mass;
    let (energy, forces) := evaluate (ld_pot ld) (p_pos p) in
    let c2 := match ld_kind ld with
              | BussiParinello friction =>
                  ld_c2 (ld_c1 friction (ld_dt ld)) (p_mass p) (ld_kt ld)
              | Overdamped => 0
              end in
    Ok (mkP (p_pos p) (p_mom p) (p_mass p) energy forces c2).

(** add_particle: bussi_parinello_ld.py:101-131, overdamped_ld.py:83-112 *)
Definition add_particle (ld : ldpar) (ps : list particle)
    (pos : vec) (mass : R) (partnum : Z) (overwrite : bool) : res (list particle) :=
  do p <- new_particle ld pos mass;
  if overwrite then py_set ps partnum p
  else if (partnum =? -1)%Z then Ok (ps ++ [p])
  else Ok (py_insert ps partnum p).

(** remove_particle: bussi_parinello_ld.py:133-138, overdamped_ld.py:114-119 *)
Definition remove_particle (ps : list particle) (partnum : Z) : res (list particle) :=
  py_del ps partnum.
