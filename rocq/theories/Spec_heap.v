(** Walkers as objects with references: histories, contents, sharing *)
From Verif Require Import PyBase Model_dyn Model_bd Model_heap Spec_ld.
Open Scope R_scope.

(** The same histories as [op] of Spec_ld.v, but a position passed to add_particle is the
    [k]-th array of the caller *)
Inductive hop :=
| HAdd (k : nat) (mass : R) (partnum : Z) (overwrite : bool)
| HRemove (partnum : Z)
| HLd
| HBd (events : list (nat * nat)).

Definition do_hop (rng : rng_if) (ld : ldpar) (s : list nat * heap * rng_st rng) (o : hop)
  : res (list nat * heap * rng_st rng) :=
  let '(ps, h, g) := s in
  match o with
  | HAdd k mass partnum overwrite =>
      do (ps', h') <- h_add_particle ld ps h k mass partnum overwrite; Ok (ps', h', g)
  | HRemove partnum => do ps' <- py_del ps partnum; Ok (ps', h, g)
  | HLd => do (h', g') <- h_ld_run rng ld ps h g; Ok (ps, h', g')
  | HBd events => do (ps', h') <- h_perform_moves ps h events; Ok (ps', h', g)
  end.
(** from a heap that has only the arrays of the caller, and no walkers *)
Definition run_hops (rng : rng_if) (ld : ldpar) (user : list vec) (ops : list hop) (g : rng_st rng) :=
  foldM (do_hop rng ld) ops ([], mkHeap user [], g).

(** the history in terms of values: every walker is independent data *)
Definition by_value (user : list vec) (o : hop) : op :=
  match o with
  | HAdd k mass partnum overwrite => OpAdd (nth k user []) mass partnum overwrite
  | HRemove partnum => OpRemove partnum
  | HLd => OpLd
  | HBd events => OpBd events
  end.
(** positions are arrays that the caller has *)
Definition passes_own_arrays (user : list vec) (o : hop) : Prop :=
  match o with HAdd k _ _ _ => (k < length user)%nat | _ => True end.

(** the object at [s] has the attribute values of [p] *)
Definition shows (h : heap) (s : nat) (p : particle) : Prop :=
  exists o, nth_error (h_obj h) s = Some o /\
    nth_error (h_arr h) (o_pos o) = Some (p_pos p) /\
    nth_error (h_arr h) (o_mom o) = Some (p_mom p) /\
    nth_error (h_arr h) (o_forces o) = Some (p_forces p) /\
    o_mass o = p_mass p /\ o_energy o = p_energy p /\ o_c2 o = p_c2 p.

Definition arrays (o : hobj) : list nat := [o_pos o; o_mom o; o_forces o].

(** the walkers are different objects, all their arrays are different from each other and from
    the arrays of the caller *)
Definition nothing_shared (user : list vec) (h : heap) (ps : list nat) : Prop :=
  NoDup ps /\
  NoDup (flat_map (fun s => match nth_error (h_obj h) s with Some o => arrays o | None => [] end) ps) /\
  (forall s o l, In s ps -> nth_error (h_obj h) s = Some o -> In l (arrays o) ->
     (length user <= l)%nat).
