(** Overdamped Langevin dynamics on float64 numbers (compare Model_dyn.v, which uses real numbers) *)
From Verif Require Export Model_f64ld.
Open Scope Z_scope.

(** overdamped_ld.py:60 *)
Definition f_noise_factor (dt : f64) : f64 := fsqrt (fmul (f_of_Z 2) dt).
(** overdamped_ld.py:76-81 for one walker with reflective boundary; the momenta are all zero (particle.py) and only their signs are changed *)
Definition f_od_update (ranges : list (f64 * f64)) (force : list f64 -> list f64) (nf dt : f64) (w : fwalker) (noise : list f64) : res fwalker :=
  let pos := fmap2 fadd (fw_pos w) (fmap2 fadd (map (fmul dt) (fw_forces w)) (map (fmul nf) noise)) in
  do (pos, mom) <- f_bc_reflective ranges pos (fw_mom w);
  Ok (mkFW pos mom (force pos)).
(** one step for every list of random numbers *)
Fixpoint f_od_steps (ranges : list (f64 * f64)) (force : list f64 -> list f64) (nf dt : f64) (w : fwalker) (noises : list (list f64)) : res fwalker :=
  match noises with
  | [] => Ok w
  | n :: rest => do w' <- f_od_update ranges force nf dt w n; f_od_steps ranges force nf dt w' rest
  end.
(** overdamped_ld.py:44-61, 98-105 and all steps *)
Definition f_overdamped (ranges : list (f64 * f64)) (force : list f64 -> list f64) (dt : f64) (pos : list f64) (noises : list (list f64)) : res fwalker :=
  f_od_steps ranges force (f_noise_factor dt) dt (f_new_walker force pos) noises.
