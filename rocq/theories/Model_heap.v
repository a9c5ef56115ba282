(** The walkers as mutable python objects: the same code as in Model_dyn.v and Model_bd.v, but
    with references.  A reference is a location in the heap; an assignment [p.mom = expr] binds
    a newly allocated array, [p.mom += expr] and the boundary condition write into the existing
    array, copy.deepcopy allocates.  Dereferencing a location that was never allocated does not
    exist in python; it is mapped to [Err TypeError] (C22 shows that it never happens). *)
From Verif Require Import PyBase Model_dyn.
Open Scope R_scope.

(** bdld/particle.py:7-46 and the derived classes (bussi_parinello_ld.py:19-32,
    overdamped_ld.py:16-27): attributes of an instance, arrays by location *)
Record hobj := mkObj {
  o_pos : nat; o_mom : nat; o_forces : nat;
  o_mass : R; o_energy : R; o_c2 : R }.

(** all arrays and all particle objects ever allocated (no garbage collection) *)
Record heap := mkHeap { h_arr : list vec; h_obj : list hobj }.

Definition deref {A} (l : list A) (i : nat) : res A :=
  match nth_error l i with Some x => Ok x | None => Err TypeError end.

(** a new array *)
Definition new_arr (h : heap) (v : vec) : heap * nat :=
  (mkHeap (h_arr h ++ [v]) (h_obj h), length (h_arr h)).
(** in-place change of an array *)
Definition write_arr (h : heap) (l : nat) (v : vec) : heap :=
  mkHeap (set_nth (h_arr h) l v) (h_obj h).
(** a new particle object *)
Definition new_obj (h : heap) (o : hobj) : heap * nat :=
  (mkHeap (h_arr h) (h_obj h ++ [o]), length (h_obj h)).
(** attribute assignments of the object at [s] *)
Definition write_obj (h : heap) (s : nat) (o : hobj) : heap :=
  mkHeap (h_arr h) (set_nth (h_obj h) s o).
Definition set_mom (h : heap) (s : nat) (v : vec) : res heap :=       (* p.mom = v, v a new array *)
  do o <- deref (h_obj h) s;
  let (h, l) := new_arr h v in
  Ok (write_obj h s (mkObj (o_pos o) l (o_forces o) (o_mass o) (o_energy o) (o_c2 o))).
Definition set_energy_forces (h : heap) (s : nat) (e : R) (f : vec) : res heap :=
  do o <- deref (h_obj h) s;                                          (* p.energy, p.forces = e, f *)
  let (h, l) := new_arr h f in
  Ok (write_obj h s (mkObj (o_pos o) (o_mom o) l (o_mass o) e (o_c2 o))).
Definition inplace_add (h : heap) (l : nat) (v : vec) : res heap :=   (* array += v *)
  do a <- deref (h_arr h) l;
  Ok (write_arr h l (vadd a v)).
Definition read_pos (h : heap) (s : nat) : res vec := do o <- deref (h_obj h) s; deref (h_arr h) (o_pos o).
Definition read_mom (h : heap) (s : nat) : res vec := do o <- deref (h_obj h) s; deref (h_arr h) (o_mom o).
Definition read_forces (h : heap) (s : nat) : res vec := do o <- deref (h_obj h) s; deref (h_arr h) (o_forces o).

(** bdld/potential/potential.py:128-179 apply_boundary_condition(p.pos, p.mom): changes both
    arrays in place.  (Simplified: both arrays are read first and written afterwards, which is
    the same for two different arrays.) *)
Definition h_boundary (pot : potential) (h : heap) (s : nat) : res heap :=
  do o <- deref (h_obj h) s;
  do pos <- deref (h_arr h) (o_pos o);
  do mom <- deref (h_arr h) (o_mom o);
  do (pos, mom) <- apply_boundary_condition pot pos mom;
  Ok (write_arr (write_arr h (o_pos o) pos) (o_mom o) mom).

(** p.energy, p.forces = self.pot.evaluate(p.pos) *)
Definition h_evaluate (pot : potential) (h : heap) (s : nat) : res heap :=
  do pos <- read_pos h s;
  let (energy, forces) := evaluate pot pos in
  set_energy_forces h s energy forces.

(** bussi_parinello_ld.py:89 and 99: p.mom = self.c1 * p.mom + p.c2 * noise *)
Definition h_thermostat (c1 : R) (noise : vec) (h : heap) (s : nat) : res heap :=
  do o <- deref (h_obj h) s;
  do mom <- deref (h_arr h) (o_mom o);
  set_mom h s (vadd (vscale c1 mom) (vscale (o_c2 o) noise)).
(** bussi_parinello_ld.py:91 and 97: p.mom += 0.5 * p.forces * self.dt *)
Definition h_kick (dt : R) (h : heap) (s : nat) : res heap :=
  do o <- deref (h_obj h) s;
  do forces <- deref (h_arr h) (o_forces o);
  inplace_add h (o_mom o) (map (fun f => 1/2 * f * dt) forces).
(** bussi_parinello_ld.py:92: p.pos += (p.mom / p.mass) * self.dt *)
Definition h_drift (dt : R) (h : heap) (s : nat) : res heap :=
  do o <- deref (h_obj h) s;
  do mom <- deref (h_arr h) (o_mom o);
  inplace_add h (o_pos o) (map (fun m => m / o_mass o * dt) mom).

(** bussi_parinello_ld.py:87-99, body of the loop for the particle object [s] *)
Definition h_bp_update (pot : potential) (c1 dt : R) (noise1 noise2 : vec) (h : heap) (s : nat) : res heap :=
  do h <- h_thermostat c1 noise1 h s;                                        (* 89 *)
  do h <- h_kick dt h s;                                                     (* 91 *)
  do h <- h_drift dt h s;                                                    (* 92 *)
  do h <- h_boundary pot h s;                                                (* 94 *)
  do h <- h_evaluate pot h s;                                                (* 96 *)
  do h <- h_kick dt h s;                                                     (* 97 *)
  h_thermostat c1 noise2 h s.                                                (* 99 *)

(** overdamped_ld.py:76-81 *)
Definition h_od_update (pot : potential) (nf dt : R) (noise : vec) (h : heap) (s : nat) : res heap :=
  do o <- deref (h_obj h) s;
  do forces <- deref (h_arr h) (o_forces o);
  do h <- inplace_add h (o_pos o) (vadd (vscale dt forces) (vscale nf noise));   (* 77-79 *)
  do h <- h_boundary pot h s;                                                (* 80 *)
  h_evaluate pot h s.                                                        (* 81 *)

Definition h_ld_update (rng : rng_if) (ld : ldpar) (h : heap) (s : nat) (g : rng_st rng)
  : res (heap * rng_st rng) :=
  match ld_kind ld with
  | BussiParinello friction =>
      let (n1, g1) := r_normal rng (pot_ndim (ld_pot ld)) g in
      let (n2, g2) := r_normal rng (pot_ndim (ld_pot ld)) g1 in
      do h' <- h_bp_update (ld_pot ld) (ld_c1 friction (ld_dt ld)) (ld_dt ld) n1 n2 h s;
      Ok (h', g2)
  | Overdamped =>
      let (n1, g1) := r_normal rng (pot_ndim (ld_pot ld)) g in
      do h' <- h_od_update (ld_pot ld) (ld_noise_factor (ld_dt ld)) (ld_dt ld) n1 h s;
      Ok (h', g1)
  end.

(** bussi_parinello_ld.py:83-99, overdamped_ld.py:72-81; [ps] is the list self.particles of
    references *)
Fixpoint h_ld_run (rng : rng_if) (ld : ldpar) (ps : list nat) (h : heap) (g : rng_st rng)
  : res (heap * rng_st rng) :=
  match ps with
  | [] => Ok (h, g)
  | s :: ps' => do (h', g') <- h_ld_update rng ld h s g; h_ld_run rng ld ps' h' g'
  end.

(** bdld/particle.py:15-46 (mom = None) and the constructors of the derived classes.  [lpos] is
    the caller's array; np.array copies it (line 31). *)
Definition h_particle (h : heap) (lpos : nat) (mass : R) : res (heap * nat) :=
  do pos <- deref (h_arr h) lpos;
  let (h, lp) := new_arr h pos in                                            (* 31 *)
  let (h, lm) := new_arr h (repeat 0 (length pos)) in                        (* 37 *)
  let (h, lf) := new_arr h [] in                       (* bussi_parinello_ld.py:31 np.empty(0) *)
  Ok (new_obj h (mkObj lp lm lf mass 0 0)).

(** add_particle: bussi_parinello_ld.py:101-131, overdamped_ld.py:83-112 *)
Definition h_add_particle (ld : ldpar) (ps : list nat) (h : heap)
    (lpos : nat) (mass : R) (partnum : Z) (overwrite : bool) : res (list nat * heap) :=
  do pos <- deref (h_arr h) lpos;
  if negb (Nat.eqb (length pos) (pot_ndim (ld_pot ld))) then Err ValueError
  else
    do (h, s) <- h_particle h lpos mass;
    do h <- h_evaluate (ld_pot ld) h s;
    do o <- deref (h_obj h) s;
    let h := match ld_kind ld with
             | BussiParinello friction =>
                 write_obj h s (mkObj (o_pos o) (o_mom o) (o_forces o) (o_mass o) (o_energy o)
                                      (ld_c2 (ld_c1 friction (ld_dt ld)) (o_mass o) (ld_kt ld)))
             | Overdamped => h
             end in
    do ps <- (if overwrite then py_set ps partnum s
              else if (partnum =? -1)%Z then Ok (ps ++ [s])
              else Ok (py_insert ps partnum s));
    Ok (ps, h).

(** copy.deepcopy of a particle object: a new object with copies of its arrays.  deepcopy keeps
    a memo of what it already copied, so an array bound to two attributes is copied once. *)
Definition deepcopy (h : heap) (s : nat) : res (heap * nat) :=
  do o <- deref (h_obj h) s;
  do pos <- deref (h_arr h) (o_pos o);
  do mom <- deref (h_arr h) (o_mom o);
  do forces <- deref (h_arr h) (o_forces o);
  let (h, lp) := new_arr h pos in
  let (h, lm) := if Nat.eqb (o_mom o) (o_pos o) then (h, lp) else new_arr h mom in
  let (h, lf) := if Nat.eqb (o_forces o) (o_pos o) then (h, lp)
                 else if Nat.eqb (o_forces o) (o_mom o) then (h, lm) else new_arr h forces in
  Ok (new_obj h (mkObj lp lm lf (o_mass o) (o_energy o) (o_c2 o))).

(** birth_death.py:258-264 perform_moves: self.particles[kill] = copy.deepcopy(self.particles[dup]) *)
Definition h_perform_move (st : list nat * heap) (ev : nat * nat) : res (list nat * heap) :=
  let (ps, h) := st in
  match nth_error ps (fst ev) with
  | None => Err IndexError
  | Some s =>
      do (h, s') <- deepcopy h s;
      if Nat.ltb (snd ev) (length ps) then Ok (set_nth ps (snd ev) s', h) else Err IndexError
  end.
Definition h_perform_moves (ps : list nat) (h : heap) (evs : list (nat * nat)) : res (list nat * heap) :=
  foldM h_perform_move evs (ps, h).
