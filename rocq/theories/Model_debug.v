(** Model of the debugging function walker_density_grid of bdld/actions/birth_death.py (not used by the program) *)
From Verif Require Export Model_bd.
Open Scope R_scope.

(** birth_death.py:285-295, one grid point with its energy.  [pos] and the grid points are given by their
    coordinates; a point of an array of shape (n,) is [[x]].  np.append flattens its arguments, and walker_pos[1] is a
    one-dimensional array, so the reshape is to one column.  As in [center] no rate is -inf. *)
Definition density_grid_point (par : bdpar) (ps : list particle) (ge : vec * R) : res (R * R) :=
  match ps with
  | _ :: _ :: _ =>
      let flat := (fst ge ++ concat (map p_pos ps))%list in
      if negb (Nat.eqb (length flat) (length ps + 1)) then Err ValueError     (* 286-288 *)
      else
        let pos := map (fun x => [x]) flat in
        let ene := snd ge :: map p_energy ps in                               (* 289 *)
        do rho <- walker_density pos (bd_bw par);                             (* 291 *)
        let beta := vadd (map ln rho) (map (fun e => e * (1 / bd_kt par)) ene) in (* 294 *)
        do r0 <- at_ rho 0; do b0 <- at_ beta 0;
        Ok (r0, b0 - mean beta)                                               (* 292, 295 *)
  | _ => Err IndexError                                                       (* 287, walker_pos[1] *)
  end.

(** birth_death.py:271-297; np.c_ raises ValueError if there are fewer energies than grid points *)
Definition walker_density_grid (par : bdpar) (ps : list particle) (grid : list vec) (energy : list R) : res (list vec) :=
  do l <- mapM (density_grid_point par ps) (combine grid energy);
  if negb (Nat.eqb (length l) (length grid)) then Err ValueError
  else Ok (map (fun x => fst x ++ [fst (snd x); snd (snd x)])%list (combine grid l)).
