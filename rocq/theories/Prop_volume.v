(** Areas in the space of positions and momenta, property C108 *)
From Coq Require Import Reals.
From Verif Require Import PyBase Model_dyn Model_pot Spec_pot Spec_ld Spec_well Spec_volume Proof_well2 Proof_volume.
Open Scope R_scope.

(** Two start states close to each other, moved with the same random numbers: the area between the changes of positions and momenta (the
    symplectic form) is multiplied by exp(- friction n dt) in n steps. Without friction it is conserved exactly, for every time step. *)
Theorem C108_area :
  forall rng ld friction mass g q q' walker walker' u v u' v', sized rng -> ld_kind ld = BussiParinello friction -> pot_bc (ld_pot ld) = None ->
  force_size (ld_pot ld) -> smooth_force (ld_pot ld) ->
  (forall s, set_up ld friction mass (q s)) -> (forall s, set_up ld friction mass (q' s)) -> q 0 = q' 0 ->
  (forall s, follows rng ld (q s) g (walker s)) -> (forall s, follows rng ld (q' s) g (walker' s)) ->
  changes (pot_ndim (ld_pot ld)) q u v -> changes (pot_ndim (ld_pot ld)) q' u' v' ->
  forall n, exists un vn un' vn',
    changes (pot_ndim (ld_pot ld)) (fun s => walker s n) un vn /\ changes (pot_ndim (ld_pot ld)) (fun s => walker' s n) un' vn' /\
    area (pot_ndim (ld_pot ld)) un vn un' vn' = exp (- (friction * (INR n * ld_dt ld))) * area (pot_ndim (ld_pot ld)) u v u' v'.
Proof. exact area_contracts. Qed.
Print Assumptions C108_area.

(** In one dimension: Liouville's theorem. The position and the momentum after n steps as functions of the start have this determinant of
    their partial derivatives. *)
Theorem C108_determinant :
  forall rng ld friction mass g start walker, sized rng -> ld_kind ld = BussiParinello friction -> pot_bc (ld_pot ld) = None ->
  force_size (ld_pot ld) -> smooth_force (ld_pot ld) -> pot_ndim (ld_pot ld) = 1%nat ->
  (forall x m, set_up ld friction mass (start x m) /\ p_pos (start x m) = [x] /\ p_mom (start x m) = [m]) ->
  (forall x m, follows rng ld (start x m) g (walker x m)) ->
  forall n x m, exists A B C D,
    derivable_pt_lim (fun t => nth 0 (p_pos (walker t m n)) 0) x A /\ derivable_pt_lim (fun t => nth 0 (p_pos (walker x t n)) 0) m B /\
    derivable_pt_lim (fun t => nth 0 (p_mom (walker t m n)) 0) x C /\ derivable_pt_lim (fun t => nth 0 (p_mom (walker x t n)) 0) m D /\
    A * D - B * C = exp (- (friction * (INR n * ld_dt ld))).
Proof. exact determinant. Qed.
Print Assumptions C108_determinant.

(** The polynomial potentials and the Mueller-Brown potential with any scaling have such forces. *)
Theorem C108_polynomial : forall c ranges bc pot, poly_init c ranges bc = Ok pot -> smooth_force pot.
Proof. exact poly_smooth. Qed.
Print Assumptions C108_polynomial.
Theorem C108_mueller_brown : forall A bc, smooth_force (mb_potential A bc).
Proof. exact mb_smooth. Qed.
Print Assumptions C108_mueller_brown.

(** The double well x^4 - 2 x^2, for every friction, time step and temperature, and every state of the generator *)
Example C108_case : forall friction dt kt, exists pot, poly_init (mkArr [5%nat] [0; 0; -2; 0; 1]) None None = Ok pot /\
  let ld := mkLD (BussiParinello friction) pot dt kt in
  pot_bc (ld_pot ld) = None /\ force_size (ld_pot ld) /\ smooth_force (ld_pot ld) /\ pot_ndim (ld_pot ld) = 1%nat /\
  (forall x m, set_up ld friction 1 (state_at ld friction x m) /\ p_pos (state_at ld friction x m) = [x] /\ p_mom (state_at ld friction x m) = [m]) /\
  forall (g : rng_st coin_rng) x m, exists walker, follows coin_rng ld (state_at ld friction x m) g walker.
Proof. exact double_well_states. Qed.
