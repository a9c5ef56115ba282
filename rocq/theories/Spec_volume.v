(** Specification of areas in the space of positions and momenta (C108) *)
From Coq Require Import Reals.
From Verif Require Import PyBase Model_dyn Spec_grid.
Open Scope R_scope.

(** The state q s of a walker depends on a parameter s; at s = 0 its positions change with the rates u and its momenta with the rates v. *)
Definition changes (n_dim : nat) (q : R -> particle) (u v : nat -> R) : Prop :=
  forall d, (d < n_dim)%nat -> derivable_pt_lim (fun s => nth d (p_pos (q s)) 0) 0 (u d) /\ derivable_pt_lim (fun s => nth d (p_mom (q s)) 0) 0 (v d).

(** Area of the parallelogram between the changes (u, v) and (u', v') in the plane of position and momentum, summed over the axes *)
Definition area (n_dim : nat) (u v u' v' : nat -> R) : R := total (map (fun d => u d * v' d - u' d * v d) (seq 0 n_dim)).

(** The force is differentiable everywhere, with a symmetric matrix H of derivatives as for every force that comes from a smooth energy. *)
Definition force_matrix (pot : potential) (H : vec -> nat -> nat -> R) : Prop :=
  (forall x d e, H x d e = H x e d) /\
  forall (y : R -> vec) u, (forall s, length (y s) = pot_ndim pot) ->
  (forall d, (d < pot_ndim pot)%nat -> derivable_pt_lim (fun s => nth d (y s) 0) 0 (u d)) ->
  forall d, (d < pot_ndim pot)%nat -> derivable_pt_lim (fun s => nth d (pot_force pot (y s)) 0) 0 (total (map (fun e => H (y 0) d e * u e) (seq 0 (pot_ndim pot)))).
Definition smooth_force (pot : potential) : Prop := exists H, force_matrix pot H.

(** for the example: a walker at x with momentum m in a potential in one dimension *)
Definition state_at (ld : ldpar) (friction x m : R) : particle :=
  mkP [x] [m] 1 (pot_energy (ld_pot ld) [x]) (pot_force (ld_pot ld) [x]) (ld_c2 (ld_c1 friction (ld_dt ld)) 1 (ld_kt ld)).
