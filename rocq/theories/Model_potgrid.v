(** Model of the grid functions of bdld/potential/potential.py and of bd_prob_density *)
From Verif Require Export Model_grid.
Open Scope R_scope.

(** np.min of an array; ValueError if it is empty *)
Definition rmin_list (l : list R) : res R :=
  match l with [] => Err ValueError | x :: t => Ok (fold_left Rmin t x) end.

(** potential.py:61-73 calculate_reference *)
Definition calculate_reference (energy : vec -> R) (pos : list vec) (mintozero : bool) : res (list R) :=
  let fes := map energy pos in
  if mintozero then do m <- rmin_list fes; Ok (map (fun x => x - m) fes) else Ok fes.

(** potential.py:75-98 calculate_probability_density.  [prob /= x] is prob = prob / x since
    Grid has no in-place division. *)
Definition calculate_probability_density (pot : potential) (kt : R) (ranges : list (R * R))
    (grid_points : list nat) : res (grid R) :=
  if negb (Nat.eqb (length ranges) (pot_ndim pot)) then Err ValueError       (* 89-90 *)
  else if negb (Nat.eqb (length grid_points) (pot_ndim pot)) then Err ValueError (* 91-92 *)
  else
    do fes <- from_npoints ranges (NList grid_points);                       (* 93 *)
    do fes <- set_from_func fes (pot_energy pot);                            (* 94 *)
    do n <- perform_math fes Ropp;                                           (* 95 *)
    do n <- perform_arithmetic 0 n (ONum kt) Rdiv;
    do prob <- perform_math n exp;
    perform_arithmetic 0 prob
      (ONum (rsum (a_flat (g_data prob)) * prod_R (g_steps prob))) Rdiv.     (* 97 *)

(** main.py:289-297, number of points in one dimension *)
Definition bd_grid_points (r : R * R) (bw : R) : nat :=
  let min_points_gaussian := Rceil ((snd r - fst r) / (1/2 * bw)) in         (* 291 *)
  let n := Z.max 501 min_points_gaussian in                                  (* 293 *)
  Z.to_nat (if (n mod 2 =? 0)%Z then n + 1 else n).                          (* 294-295 *)

(** bd_bw[dim] raises IndexError if there are more ranges than bandwidths *)
Fixpoint bd_n_points (ranges : list (R * R)) (bw : vec) : res (list nat) :=
  match ranges, bw with
  | [], _ => Ok []
  | _ :: _, [] => Err IndexError
  | r :: rs, b :: bs => do t <- bd_n_points rs bs; Ok (bd_grid_points r b :: t)
  end.

(** main.py:276-297 bd_prob_density *)
Definition bd_prob_density (pot : potential) (bw : vec) (kt : R) : res (grid R) :=
  do ns <- bd_n_points (pot_ranges pot) bw;
  calculate_probability_density pot kt (pot_ranges pot) ns.
